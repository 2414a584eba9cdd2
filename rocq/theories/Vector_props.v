(** C62: vectors of the plane and of space. *)
From Coq Require Import ZArith Bool List Reals Lia Lra Psatz.
From Flocq Require Import Core IEEE754.BinarySingleNaN.
From Verif Require Import Base F64 F64Facts F64Err Num NumLink DD_spec DD_more Coordinate_model Coordinate_proofs Orientation_model Orientation_spec Orientation_proofs Orientation_props
  Distance_model Distance_spec Distance_proofs Distance_float Distance_props Envelope_proofs Intersection_spec Intersection_proofs Intersection_props
  PointLocation_proofs LineIntersector_proofs DDArith_proofs DDArith_props Distance3D_model Distance3D_spec Distance3D_proofs Distance3D_props Angle_model Angle_proofs Angle_props AngleMore_props Vector_model.
Import ListNotations.
Local Open Scope R_scope.

(** ** Signs of zero and of negated operands *)
Lemma fneg_fneg x : fneg (fneg x) = x.
Proof. destruct x; unfold fneg, Bopp; now rewrite ?negb_involutive. Qed.
Lemma xorb_negs a b : xorb (negb a) (negb b) = xorb a b.
Proof. destruct a, b; reflexivity. Qed.
Lemma fmul_negs x y : fmul (fneg x) (fneg y) = fmul x y.
Proof.
  destruct x as [sx|sx| |sx mx ex Hx], y as [sy|sy| |sy my ey Hy]; try reflexivity; try (unfold fmul, fneg, Bmult, Bopp; now rewrite xorb_negs).
  apply B2SF_inj. unfold fmul, fneg, Bmult, Bopp. rewrite !B2SF_SF2B. now rewrite xorb_negs.
Qed.
Lemma fsub_0 x : fsub x f0 = x.
Proof. destruct x as [[]|[]| |]; reflexivity. Qed.

(** ** Rotation by quarter turns *)
Definition i32 (n : Z) : Prop := (- 2 ^ 31 <= n < 2 ^ 31)%Z.
Lemma quad_mod n : (if (n <? 0)%Z && negb (Z.rem n 4 =? 0)%Z then Z.rem n 4 + 4 else Z.rem n 4)%Z = (n mod 4)%Z.
Proof.
  pose proof (Z.quot_rem' n 4) as Q. destruct (Z.ltb_spec n 0) as [N|N]; cbn [andb].
  - pose proof (Z.rem_bound_pos_neg n 4 ltac:(lia) ltac:(lia)) as B. destruct (Z.eqb_spec (Z.rem n 4) 0) as [E|E]; cbn [negb].
    + apply (Z.mod_unique _ _ (Z.quot n 4)); [left|]; lia.
    + apply (Z.mod_unique _ _ (Z.quot n 4 - 1)); [left|]; lia.
  - pose proof (Z.rem_bound_pos n 4 N ltac:(lia)) as B. apply (Z.mod_unique _ _ (Z.quot n 4)); [left|]; lia.
Qed.
Definition quarter (u : V2) : V2 := mkV2 (fneg (vy u)) (vx u).
Lemma quarter4 u : quarter (quarter (quarter (quarter u))) = u.
Proof. destruct u as [x y]. unfold quarter. cbn [vx vy]. now rewrite !fneg_fneg. Qed.
Lemma rotate_iter u n : v2_rotate_quarter u n = Some (Nat.iter (Z.to_nat (n mod 4)) quarter u).
Proof.
  unfold v2_rotate_quarter. cbv zeta. rewrite quad_mod. pose proof (Z.mod_pos_bound n 4 ltac:(lia)) as B.
  assert (n mod 4 = 0 \/ n mod 4 = 1 \/ n mod 4 = 2 \/ n mod 4 = 3)%Z as [->|[->|[->| ->]]] by lia; destruct u as [x y]; unfold quarter;
    [change (Z.to_nat 0) with 0%nat|change (Z.to_nat 1) with 1%nat|change (Z.to_nat 2) with 2%nat|change (Z.to_nat 3) with 3%nat]; cbn [Nat.iter nat_rect Z.eqb Pos.eqb vx vy]; rewrite ?fneg_fneg; reflexivity.
Qed.
Lemma periods n x : cos (x + 2 * IZR n * PI) = cos x /\ sin (x + 2 * IZR n * PI) = sin x.
Proof.
  assert (forall k x, cos (x + 2 * IZR (Z.of_nat k) * PI) = cos x /\ sin (x + 2 * IZR (Z.of_nat k) * PI) = sin x) as K.
  { intros k y. rewrite <- INR_IZR_INZ. split; [apply cos_period|apply sin_period]. }
  destruct (Z.le_ge_cases 0 n) as [H|H].
  - rewrite <- (Z2Nat.id n H). apply K.
  - destruct (K (Z.to_nat (- n)) (x + 2 * IZR n * PI)) as (A & B). rewrite Z2Nat.id, opp_IZR in A, B by lia.
    replace (x + 2 * IZR n * PI + 2 * - IZR n * PI) with x in A, B by ring. auto.
Qed.
Lemma iter_plus {A} (f : A -> A) a b x : Nat.iter (a + b) f x = Nat.iter a f (Nat.iter b f x).
Proof. induction a as [|a IH]; [reflexivity|]. cbn. f_equal. exact IH. Qed.
(** Rotation by [n] quarter turns always succeeds, for every [i32]; it is the
    rotation of the plane by [n * pi / 2], without any rounding, *)
Theorem C62_rotate_quarter : forall n u, i32 n -> exists w, v2_rotate_quarter u n = Some w /\
  (fis_finite (vx u) = true -> fis_finite (vy u) = true ->
     fis_finite (vx w) = true /\ fis_finite (vy w) = true /\
     R_of (vx w) = R_of (vx u) * cos (IZR n * (PI / 2)) - R_of (vy u) * sin (IZR n * (PI / 2)) /\
     R_of (vy w) = R_of (vx u) * sin (IZR n * (PI / 2)) + R_of (vy u) * cos (IZR n * (PI / 2))) /\
  ((fabs (vx w) = fabs (vx u) /\ fabs (vy w) = fabs (vy u)) \/ (fabs (vx w) = fabs (vy u) /\ fabs (vy w) = fabs (vx u))).
Proof.
  intros n u _. eexists. split; [apply rotate_iter|].
  assert (IZR n * (PI / 2) = IZR (n mod 4) * (PI / 2) + 2 * IZR (n / 4) * PI) as E.
  { rewrite (Z.div_mod n 4) at 1 by lia. rewrite plus_IZR, mult_IZR. field. }
  rewrite E. destruct (periods (n / 4) (IZR (n mod 4) * (PI / 2))) as (-> & ->).
  assert (forall x, fabs (fneg x) = fabs x) as AN by (intros []; reflexivity).
  pose proof (Z.mod_pos_bound n 4 ltac:(lia)) as B.
  assert (n mod 4 = 0 \/ n mod 4 = 1 \/ n mod 4 = 2 \/ n mod 4 = 3)%Z as [->|[->|[->| ->]]] by lia;
    [change (Z.to_nat 0) with 0%nat|change (Z.to_nat 1) with 1%nat|change (Z.to_nat 2) with 2%nat|change (Z.to_nat 3) with 3%nat]; unfold quarter; cbn [Nat.iter nat_rect vx vy].
  - rewrite Rmult_0_l, cos_0, sin_0. split; [intros; repeat split; try assumption; ring|now left].
  - rewrite Rmult_1_l, cos_PI2, sin_PI2. rewrite fneg_fin, fneg_R, AN. split; [intros; repeat split; try assumption; ring|now right].
  - replace (2 * (PI / 2)) with PI by field. rewrite cos_PI, sin_PI. rewrite !fneg_fin, !fneg_R, !AN. split; [intros; repeat split; try assumption; ring|now left].
  - replace (3 * (PI / 2)) with (PI / 2 + PI) by field. rewrite neg_cos, neg_sin, cos_PI2, sin_PI2. rewrite !fneg_fin, !fneg_R, !AN, Ropp_involutive.
    split; [intros; repeat split; try assumption; ring|now right].
Qed.
(** and an action of the integers: turns add up, bit for bit, NaN, infinities
    and signed zeros included; only [n] modulo 4 counts, 0 turns do nothing and
    [-n] undoes [n]. *)
Theorem C62_rotate_action : forall i j u, i32 i -> i32 j -> i32 (i + j) ->
  exists w, v2_rotate_quarter u i = Some w /\ v2_rotate_quarter w j = v2_rotate_quarter u (i + j).
Proof.
  intros i j u _ _ _. eexists. split; [apply rotate_iter|]. rewrite !rotate_iter. f_equal.
  rewrite <- iter_plus. rewrite Z.add_mod by lia. pose proof (Z.mod_pos_bound i 4 ltac:(lia)) as A. pose proof (Z.mod_pos_bound j 4 ltac:(lia)) as B.
  set (a := (i mod 4)%Z) in *. set (b := (j mod 4)%Z) in *.
  assert (Z.to_nat b + Z.to_nat a = Z.to_nat ((a + b) mod 4) \/ Z.to_nat b + Z.to_nat a = 4 + Z.to_nat ((a + b) mod 4))%nat as [->| ->].
  { destruct (Z.lt_ge_cases (a + b) 4); [left; rewrite Z.mod_small by lia; lia|right].
    replace ((a + b) mod 4)%Z with (a + b - 4)%Z by (apply (Z.mod_unique _ _ 1); [left|]; lia). lia. }
  - reflexivity.
  - rewrite iter_plus. apply quarter4.
Qed.
Theorem C62_rotate_modulo : forall i j u, i32 i -> i32 j -> (i mod 4 = j mod 4)%Z -> v2_rotate_quarter u i = v2_rotate_quarter u j.
Proof. intros i j u _ _ E. rewrite !rotate_iter. now rewrite E. Qed.
Theorem C62_rotate_inverse : forall i u, i32 i -> i32 (- i) -> v2_rotate_quarter u 0 = Some u /\
  exists w, v2_rotate_quarter u i = Some w /\ v2_rotate_quarter w (- i) = Some u.
Proof.
  intros i u A B. assert (v2_rotate_quarter u 0 = Some u) as Z by (now rewrite rotate_iter). split; [exact Z|].
  destruct (C62_rotate_action i (- i) u A B) as (w & E & F); [unfold i32; lia|]. exists w. split; [exact E|]. rewrite F, Z.add_opp_diag_r. exact Z.
Qed.
(** Rotation keeps scalar products and squared lengths, bit for bit; two
    quarter turns negate. *)
Theorem C62_rotate_dot : forall n u v, i32 n -> exists u' v', v2_rotate_quarter u n = Some u' /\ v2_rotate_quarter v n = Some v' /\
  v2_dot u' v' = v2_dot u v /\ v2_length2 u' = v2_length2 u.
Proof.
  intros n u v _. do 2 eexists. split; [apply rotate_iter|]. split; [apply rotate_iter|].
  assert (forall a b, v2_dot (quarter a) (quarter b) = v2_dot a b) as Q.
  { intros a b. unfold v2_dot, quarter. cbn [vx vy]. now rewrite fmul_negs, fadd_comm. }
  assert (forall k a b, v2_dot (Nat.iter k quarter a) (Nat.iter k quarter b) = v2_dot a b) as K.
  { intros k a b. induction k as [|k IH]; [reflexivity|]. exact (eq_trans (Q _ _) IH). }
  split; [apply K|]. change (v2_length2 ?a) with (v2_dot a a). apply K.
Qed.
Theorem C62_rotate_half : forall u, v2_rotate_quarter u 2 = Some (v2_neg u).
Proof. reflexivity. Qed.

(** ** Sums and differences *)
Lemma fadd_negs a b : nn (fadd a b) -> feqb (fadd (fneg a) (fneg b)) (fneg (fadd a b)) = true.
Proof.
  intros N. assert (fis_finite a = true -> fis_finite b = true -> feqb (fadd (fneg a) (fneg b)) (fneg (fadd a b)) = true) as FIN.
  { intros Fa Fb. destruct (Rlt_le_dec (Rabs (RN (R_of a + R_of b))) (bp 1024)) as [L|L].
    - destruct (fadd_R a b Fa Fb L) as (F & E).
      destruct (fadd_R (fneg a) (fneg b)) as (F' & E'); rewrite ?fneg_fin, ?fneg_R; auto.
      { replace (- R_of a + - R_of b) with (- (R_of a + R_of b)) by ring. now rewrite RN_opp, Rabs_Ropp. }
      rewrite feqb_R by (rewrite ?fneg_fin; assumption). rewrite E', !fneg_R, E.
      replace (- R_of a + - R_of b) with (- (R_of a + R_of b)) by ring. rewrite RN_opp. apply Req_bool_true. reflexivity.
    - assert (forall x y, fis_finite x = true -> fis_finite y = true -> bp 1024 <= Rabs (RN (R_of x + R_of y)) -> fadd x y = B754_infinity (Bsign x) /\ Bsign x = Bsign y) as OV.
      { intros x y Fx Fy H. pose proof (Bplus_correct 53 1024 _ _ mode_NE x y Fx Fy) as C. rewrite Rlt_bool_false in C by exact H.
        destruct C as (C & S). split; [|exact S]. apply B2SF_inf. unfold fadd. rewrite C. reflexivity. }
      destruct (OV a b Fa Fb L) as (-> & S). destruct (OV (fneg a) (fneg b)) as (-> & _); rewrite ?fneg_fin; auto.
      { rewrite !fneg_R. replace (- R_of a + - R_of b) with (- (R_of a + R_of b)) by ring. now rewrite RN_opp, Rabs_Ropp. }
      assert (Bsign (fneg a) = negb (Bsign a)) as -> by (destruct a; try discriminate; reflexivity). destruct (Bsign a); reflexivity. }
  destruct a as [sa|sa| |sa ma ea Ha], b as [sb|sb| |sb mb eb Hb]; try (now apply FIN); try (exfalso; revert N; now cbn);
    try (destruct sa, sb; (reflexivity || (exfalso; revert N; now cbn))); try (destruct sa; reflexivity); try (destruct sb; reflexivity).
Qed.
Definition nnv (u : V2) : Prop := nn (vx u) /\ nn (vy u).
Lemma feqb_refl x : nn x -> feqb x x = true.
Proof. intros N. rewrite feqb_rank by assumption. apply Z.eqb_refl. Qed.
Lemma feqb_sym x y : feqb x y = feqb y x.
Proof.
  destruct (fis_nan x) eqn:X; [rewrite feqb_nan_l, feqb_nan_r; auto|]. destruct (fis_nan y) eqn:Y; [rewrite feqb_nan_r, feqb_nan_l; auto|].
  rewrite !feqb_rank by assumption. apply Z.eqb_sym.
Qed.
Theorem C62_sum_laws : forall u v,
  v2_add u v = v2_add v u /\ v2_sub u v = v2_add u (v2_neg v) /\ v2_neg (v2_neg u) = u /\
  (nnv u -> v2_equals (v2_add u v2_default) u = true /\ v2_equals (v2_sub u v2_default) u = true) /\
  (nnv (v2_add u v) -> v2_equals (v2_add (v2_neg u) (v2_neg v)) (v2_neg (v2_add u v)) = true) /\
  (nnv (v2_sub u v) -> v2_equals (v2_sub v u) (v2_neg (v2_sub u v)) = true) /\
  v2_dot u v = v2_dot v u /\ v2_dot u u = v2_length2 u.
Proof.
  intros [x y] [x' y']. unfold v2_add, v2_sub, v2_neg, v2_dot, v2_length2, v2_equals, v2_default, nnv. cbn [vx vy]. rewrite !fsub_0, !fsub_fadd, !fneg_fneg.
  split; [now rewrite (fadd_comm x), (fadd_comm y)|]. split; [reflexivity|]. split; [reflexivity|]. split; [|split; [|split; [|split; [|reflexivity]]]].
  - intros (A & B). assert (forall z, nn z -> feqb (fadd z f0) z = true) as K.
    { intros z N. rewrite feqb_rank; [|apply nn_fadd_fin; [exact N|reflexivity]|exact N]. change f0 with (B754_zero false : f64). rewrite fadd_0_rank by exact N. apply Z.eqb_refl. }
    rewrite !K, !feqb_refl by assumption. auto.
  - intros (A & B). now rewrite !fadd_negs.
  - intros (A & B). pose proof (fadd_negs _ _ A) as P. pose proof (fadd_negs _ _ B) as Q. rewrite fneg_fneg in P, Q.
    rewrite (fadd_comm x'), (fadd_comm y'), P, Q. reflexivity.
  - now rewrite (fmul_comm x), (fmul_comm y).
Qed.
(** [equals] is a partial equivalence; a vector equals itself exactly when it
    has no NaN. *)
Theorem C62_equals : forall u v w,
  (v2_equals u u = true <-> nnv u) /\ v2_equals u v = v2_equals v u /\
  (v2_equals u v = true -> v2_equals v w = true -> v2_equals u w = true).
Proof.
  intros u v w. unfold v2_equals, nnv. split; [|split].
  - rewrite andb_true_iff. split; intros (A & B); split; try (apply feqb_refl; assumption); [apply (feqb_nn _ _ A)|apply (feqb_nn _ _ B)].
  - now rewrite (feqb_sym (vx u)), (feqb_sym (vy u)).
  - rewrite !andb_true_iff. intros (A & B) (C & D).
    assert (forall x y z, feqb x y = true -> feqb y z = true -> feqb x z = true) as K.
    { intros x y z P Q. destruct (feqb_nn _ _ P) as (N1 & N2), (feqb_nn _ _ Q) as (_ & N3). rewrite feqb_rank in P, Q |- * by assumption. apply Z.eqb_eq in P, Q. apply Z.eqb_eq. congruence. }
    eauto.
Qed.

(** Equality looks at every component, in the plane and in space. *)
Theorem C62_equals_components : forall u v a b,
  (v2_equals u v = true <-> feqb (vx u) (vx v) = true /\ feqb (vy u) (vy v) = true) /\
  (v3_equals a b = true <-> feqb (wx a) (wx b) = true /\ feqb (wy a) (wy b) = true /\ feqb (wz a) (wz b) = true) /\
  (v3_equals a a = true <-> nn (wx a) /\ nn (wy a) /\ nn (wz a)) /\ v3_equals a b = v3_equals b a /\
  (forall c, v3_equals a b = true -> v3_equals b c = true -> v3_equals a c = true).
Proof.
  intros u v a b. unfold v2_equals, v3_equals. rewrite !andb_true_iff.
  assert (forall x y z, feqb x y = true -> feqb y z = true -> feqb x z = true) as K.
  { intros x y z P Q. destruct (feqb_nn _ _ P) as (N1 & N2), (feqb_nn _ _ Q) as (_ & N3). rewrite feqb_rank in P, Q |- * by assumption. apply Z.eqb_eq in P, Q. apply Z.eqb_eq. congruence. }
  split; [tauto|]. split; [tauto|]. split; [|split].
  - split; [intros ((A & B) & C)|intros (A & B & C)]; repeat split; try (apply feqb_refl; assumption);
      [apply (feqb_nn _ _ A)|apply (feqb_nn _ _ B)|apply (feqb_nn _ _ C)].
  - now rewrite (feqb_sym (wx a)), (feqb_sym (wy a)), (feqb_sym (wz a)).
  - intros c. rewrite !andb_true_iff. intros ((A & B) & C) ((D & E) & F). repeat split; eauto.
Qed.
(** A vector made of a coordinate has its ordinates as components, and gives the
    ordinates back. *)
Theorem C62_components : forall c u i,
  v2_component (v2_of_coordinate c) 0 = cx c /\ (i <> 0%nat -> v2_component (v2_of_coordinate c) i = cy c) /\
  cx (v2_to_coordinate (v2_of_coordinate c)) = cx c /\ cy (v2_to_coordinate (v2_of_coordinate c)) = cy c /\
  v2_of_coordinate (v2_to_coordinate u) = u /\
  cx (v2_to_coordinate u) = v2_component u 0 /\ cy (v2_to_coordinate u) = v2_component u 1 /\
  v2_component v2_default i = f0 /\
  (wx (v3_of_coordinate c) = cx c /\ wy (v3_of_coordinate c) = cy c /\ wz (v3_of_coordinate c) = cz c).
Proof. intros c [x y] i. repeat split; try reflexivity; destruct i; try reflexivity. contradiction. Qed.

(** ** Vectors on a grid *)
Definition vec (e : Z) (u : V2) : Prop :=
  (exists n, (Z.abs n <= 2 ^ 24)%Z /\ grid e (vx u) n) /\ (exists n, (Z.abs n <= 2 ^ 24)%Z /\ grid e (vy u) n).
Definition finv (u : V2) : Prop := fis_finite (vx u) = true /\ fis_finite (vy u) = true.
Definition rv (u : V2) : pR := mkP (R_of (vx u)) (R_of (vy u)).
Definition norm (p : pR) : R := sqrt (px p * px p + py p * py p).
Lemma vec_ex e u : vec e u -> ex e 24 (vx u) (R_of (vx u)) /\ ex e 24 (vy u) (R_of (vy u)).
Proof. intros [(n & Hn & Gn) (m & Hm & Gm)]. split; [exact (ex_self e 24 _ _ Hn Gn) | exact (ex_self e 24 _ _ Hm Gm)]. Qed.
(** With components [n * 2^e], [|n| <= 2^24], sums, differences, scalar products,
    squared lengths and averages are exact. *)
Theorem C62_exact : forall e u v, (-400 <= e <= 400)%Z -> vec e u -> vec e v ->
  (finv (v2_add u v) /\ rv (v2_add u v) = mkP (R_of (vx u) + R_of (vx v)) (R_of (vy u) + R_of (vy v))) /\
  (finv (v2_sub u v) /\ rv (v2_sub u v) = mkP (R_of (vx u) - R_of (vx v)) (R_of (vy u) - R_of (vy v))) /\
  (fis_finite (v2_dot u v) = true /\ R_of (v2_dot u v) = R_of (vx u) * R_of (vx v) + R_of (vy u) * R_of (vy v)) /\
  (fis_finite (v2_length2 u) = true /\ R_of (v2_length2 u) = norm (rv u) * norm (rv u)) /\
  (finv (v2_average u v) /\ rv (v2_average u v) = mkP ((R_of (vx u) + R_of (vx v)) / 2) ((R_of (vy u) + R_of (vy v)) / 2)).
Proof.
  intros e u v He Hu Hv. apply vec_ex in Hu, Hv. destruct Hu as (X & Y), Hv as (X' & Y').
  assert (forall a b A B, ex e 24 a A -> ex e 24 b B -> ex (e - 1) 27 (fadd (fmul fhalf a) (fmul (fsub f1 fhalf) b)) ((A + B) / 2)) as AV.
  { intros a b A B HA HB. assert (bp (-1) = / 2) as B1 by reflexivity.
    assert (ex (-1) 1 fhalf (/ 2)) as H2.
    { destruct (grid_mkf 1 (-1) ltac:(lia) ltac:(cbn; lia)) as (F & E). change (mkf 1 (-1)) with fhalf in *. split; [exact F|].
      rewrite B1 in *. split; [rewrite E; lra|]. exists 1%Z. split; [cbn; lia|lra]. }
    assert (ex (-1) 1 f1 1) as H1 by (split; [reflexivity|]; split; [apply R_of_f1|]; exists 2%Z; split; [cbn; lia|rewrite B1; lra]).
    pose proof (ex_sub (-1) 1 _ _ _ _ ltac:(lia) ltac:(lia) H1 H2) as H3. replace (1 - / 2) with (/ 2) in H3 by lra.
    assert (forall k h z Z, (k <= 2)%Z -> (0 <= k)%Z -> ex (-1) k h (/ 2) -> ex e 24 z Z -> ex (e - 1) 26 (fmul h z) (/ 2 * Z)) as HM.
    { intros k h z Z K0 K1 Hh Hz. replace (e - 1)%Z with (-1 + e)%Z by lia. apply (ex_weak _ (k + 24)); [lia|]. apply (ex_mul (-1) e k 24); try lia; assumption. }
    replace ((A + B) / 2) with (/ 2 * A + / 2 * B) by field. apply (ex_add (e - 1) 26); try lia; [apply (HM 1%Z)|apply (HM 2%Z)]; auto; lia. }
  pose proof (ex_add e 24 _ _ _ _ ltac:(lia) ltac:(lia) X X') as A1. pose proof (ex_add e 24 _ _ _ _ ltac:(lia) ltac:(lia) Y Y') as A2.
  pose proof (ex_sub e 24 _ _ _ _ ltac:(lia) ltac:(lia) X X') as S1. pose proof (ex_sub e 24 _ _ _ _ ltac:(lia) ltac:(lia) Y Y') as S2.
  assert (forall x y z w a b c d, ex e 24 x a -> ex e 24 y b -> ex e 24 z c -> ex e 24 w d -> ex (e + e) 49 (fadd (fmul x y) (fmul z w)) (a * b + c * d)) as DT.
  { intros. apply (ex_add (e + e) 48); try lia; apply (ex_mul e e 24 24); try lia; assumption. }
  pose proof (DT _ _ _ _ _ _ _ _ X X' Y Y') as D1. pose proof (DT _ _ _ _ _ _ _ _ X X Y Y) as D2.
  pose proof (AV _ _ _ _ X X') as M1. pose proof (AV _ _ _ _ Y Y') as M2.
  split; [|split; [|split; [|split]]].
  - split; [split; [apply (ex_fin _ _ _ _ A1)|apply (ex_fin _ _ _ _ A2)]|]. unfold rv, v2_add. cbn [vx vy]. now rewrite (ex_R _ _ _ _ A1), (ex_R _ _ _ _ A2).
  - split; [split; [apply (ex_fin _ _ _ _ S1)|apply (ex_fin _ _ _ _ S2)]|]. unfold rv, v2_sub. cbn [vx vy]. now rewrite (ex_R _ _ _ _ S1), (ex_R _ _ _ _ S2).
  - split; [apply (ex_fin _ _ _ _ D1)|apply (ex_R _ _ _ _ D1)].
  - split; [apply (ex_fin _ _ _ _ D2)|]. unfold v2_length2. rewrite (ex_R _ _ _ _ D2). unfold norm, rv. cbn [px py]. rewrite sqrt_sqrt by nra. reflexivity.
  - split; [split; [apply (ex_fin _ _ _ _ M1)|apply (ex_fin _ _ _ _ M2)]|]. unfold rv, v2_average, v2_weighted. cbn [vx vy]. now rewrite (ex_R _ _ _ _ M1), (ex_R _ _ _ _ M2).
Qed.
(** Moving a point by the vector to another one gives that point. *)
Theorem C62_translate : forall e p q, (-400 <= e <= 400)%Z -> small_pt e p -> small_pt e q ->
  equals_2d (v2_translate (v2_from_to p q) p) q = true /\ rv (v2_from_to p q) = mkP (R_of (cx q) - R_of (cx p)) (R_of (cy q) - R_of (cy p)).
Proof.
  intros e p q He Sp Sq. apply small_ptx in Sp, Sq. destruct Sp as (X & Y), Sq as (X' & Y'). cbn [pf px py rpt] in *.
  pose proof (ex_sub e 24 _ _ _ _ ltac:(lia) ltac:(lia) X' X) as S1. pose proof (ex_sub e 24 _ _ _ _ ltac:(lia) ltac:(lia) Y' Y) as S2.
  split; [|unfold rv, v2_from_to; cbn [vx vy]; now rewrite (ex_R _ _ _ _ S1), (ex_R _ _ _ _ S2)].
  pose proof (ex_add e 25 _ _ _ _ ltac:(lia) ltac:(lia) S1 (ex_weak e 24 25 _ _ ltac:(lia) X)) as T1. pose proof (ex_add e 25 _ _ _ _ ltac:(lia) ltac:(lia) S2 (ex_weak e 24 25 _ _ ltac:(lia) Y)) as T2.
  unfold equals_2d, v2_translate, v2_from_to, new_xy. cbn [cx cy vx vy].
  change (fneb (fadd (fsub (cx q) (cx p)) (cx p)) (cx q)) with (negb (feqb (fadd (fsub (cx q) (cx p)) (cx p)) (cx q))).
  change (fneb (fadd (fsub (cy q) (cy p)) (cy p)) (cy q)) with (negb (feqb (fadd (fsub (cy q) (cy p)) (cy p)) (cy q))).
  rewrite (ex_eqb _ _ _ _ _ _ _ _ T1 X'), (ex_eqb _ _ _ _ _ _ _ _ T2 Y').
  rewrite !Req_bool_true by ring. reflexivity.
Qed.

(** ** Lengths and unit vectors *)
Lemma ex_low e k x X : ex e k x X -> X = 0 \/ bp e <= Rabs X.
Proof.
  intros (_ & _ & n & _ & ->). destruct (Z.eq_dec n 0) as [->|N]; [left; ring|right]. pose proof (bpow_gt_0 radix2 e). rewrite Rabs_mult, (Rabs_pos_eq (bp e)), <- abs_IZR by lra.
  assert (1 <= IZR (Z.abs n)) by (apply IZR_le; lia). nra.
Qed.
Lemma bp51 : bp (-51) = 4 * u53.
Proof. change (-51)%Z with (-53 + 1 + 1)%Z. rewrite !bp_S. ring. Qed.
Lemma bp52 : bp (-52) = 2 * u53.
Proof. change (-52)%Z with (-53 + 1)%Z. apply bp_S. Qed.
Lemma unit_div e x X L h : (-400 <= e <= 400)%Z -> ex e 24 x X -> fis_finite L = true -> Rabs (R_of L - h) <= 2 * u53 * h -> bp e <= h <= bp (e + 26) -> Rabs X <= h ->
  fis_finite (fdiv x L) = true /\ Rabs (R_of (fdiv x L) - X / h) <= bp (-51) * Rabs (X / h).
Proof.
  intros He Hx FL EL Bh XL. rewrite bp51. pose proof u53_pos as U0. pose proof u53_small as U1. pose proof (bpow_gt_0 radix2 e) as Be. assert (0 < h) as L0 by lra.
  pose proof (ex_fin _ _ _ _ Hx) as Fx. assert (R_of x = X) as Ex by exact (ex_R _ _ _ _ Hx).
  assert (R_of L <> 0) as NH by (apply Rabs_le_inv in EL; assert (u53 * h <= / 1024 * h) by (apply Rmult_le_compat_r; lra); lra).
  assert (Rabs (R_of L / h - 1) <= 2 * u53) as RH by (apply rel_of_abs; [lra|rewrite (Rabs_pos_eq h) by lra; exact EL]).
  destruct (ex_low _ _ _ _ Hx) as [Z|LX].
  { destruct (fdiv_R x L Fx NH) as (Fq & Eq); rewrite Ex, Z in *; unfold Rdiv in *; rewrite Rmult_0_l, RN_0, ?Rabs_R0 in *; [apply bpow_gt_0|].
    split; [exact Fq|]. rewrite Eq, Rminus_eq_0, Rabs_R0. lra. }
  assert (X <> 0) as NX by (intros Q; rewrite Q, Rabs_R0 in LX; lra).
  assert (Rabs (/ (R_of L / h) - 1) <= 2 * u53 + 2 * (2 * u53) * (2 * u53)) as RI by (apply rel_inv; [lra|exact RH]).
  assert (0 <= u53 * u53 <= / 1024 * u53) as UU by (split; [apply Rmult_le_pos; lra|apply Rmult_le_compat_r; lra]).
  set (V := X / R_of L). set (W := X / h).
  assert (W <> 0) as NW by (apply Rmult_integral_contrapositive_currified; [exact NX|apply Rinv_neq_0_compat; lra]).
  assert (Rabs (V / W - 1) <= 2 * u53 + / 10 * u53) as RQ.
  { replace (V / W) with (/ (R_of L / h)) by (unfold V, W; field; repeat split; lra). eapply Rle_trans; [exact RI|]. lra. }
  assert (Rabs (V - W) <= (2 * u53 + / 10 * u53) * Rabs W) as EV.
  { replace (V - W) with ((V / W - 1) * W) by (field; exact NW). rewrite Rabs_mult. apply Rmult_le_compat_r; [apply Rabs_pos|exact RQ]. }
  assert (Rabs W <= 1) as BW.
  { unfold W, Rdiv. rewrite Rabs_mult, (Rabs_pos_eq (/ h)) by (left; now apply Rinv_0_lt_compat). apply Rmult_le_reg_r with h; [exact L0|]. rewrite Rmult_assoc, Rinv_l by lra. lra. }
  assert (bp (-26) <= Rabs W) as LW.
  { unfold W, Rdiv. rewrite Rabs_mult, (Rabs_pos_eq (/ h)) by (left; now apply Rinv_0_lt_compat).
    apply Rle_trans with (bp e * bp (- (e + 26))); [rewrite <- bpow_plus; apply bpow_le; lia|].
    apply Rmult_le_compat; [apply bpow_ge_0..|exact LX|]. rewrite bpow_opp. apply Rinv_le; lra. }
  pose proof (Rabs_pos W) as PW. assert (0 <= u53 * Rabs W <= / 1024 * Rabs W) as UW by (split; [apply Rmult_le_pos; lra|apply Rmult_le_compat_r; lra]).
  assert (Rabs V <= Rabs W + (2 * u53 + / 10 * u53) * Rabs W) as BV by (replace V with (W + (V - W)) by ring; eapply Rle_trans; [apply Rabs_triang|]; lra).
  assert (Rabs W <= Rabs V + (2 * u53 + / 10 * u53) * Rabs W) as BV2.
  { rewrite Rabs_minus_sym in EV. replace W with (V + (W - V)) at 1 by ring. eapply Rle_trans; [apply Rabs_triang|]; lra. }
  assert (Rabs V <= bp 1) as BV3 by (change (bp 1) with 2; lra).
  destruct (fdiv_R x L Fx NH) as (Fq & Eq); [rewrite Ex; fold V; apply (RN_small _ 1); [lia|exact BV3]|]. rewrite Ex in Eq. fold V in Eq. split; [exact Fq|]. rewrite Eq.
  assert (Rabs (RN V - V) <= u53 * Rabs V) as EF.
  { apply RN_rel. right. apply Rle_trans with (bp (-27)); [apply bpow_le; lia|]. assert (bp (-26) = 2 * bp (-27)) by (change (-26)%Z with (-27 + 1)%Z; apply bp_S). lra. }
  assert (u53 * Rabs V <= u53 * (Rabs W + (2 * u53 + / 10 * u53) * Rabs W)) as Q1 by (apply Rmult_le_compat_l; lra).
  replace (RN V - W) with ((RN V - V) + (V - W)) by ring. eapply Rle_trans; [apply Rabs_triang|].
  assert (u53 * (u53 * Rabs W) <= / 1024 * (u53 * Rabs W)) by (apply Rmult_le_compat_r; lra). lra.
Qed.
Lemma norm_unit a b c A B C k : 0 <= k <= 1 -> A * A + B * B + C * C = 1 ->
  Rabs (a - A) <= k * Rabs A -> Rabs (b - B) <= k * Rabs B -> Rabs (c - C) <= k * Rabs C -> Rabs (sqrt (a * a + b * b + c * c) - 1) <= k.
Proof.
  intros K S HA HB HC.
  assert (forall x X, Rabs (x - X) <= k * Rabs X -> (1 - k) * (1 - k) * (X * X) <= x * x <= (1 + k) * (1 + k) * (X * X)) as Q.
  { intros x X H. pose proof (Rabs_pos X) as P.
    assert (Rabs x <= (1 + k) * Rabs X) as Up by (replace x with (X + (x - X)) by ring; eapply Rle_trans; [apply Rabs_triang|]; lra).
    assert ((1 - k) * Rabs X <= Rabs x) as Lo by (assert (Rabs X <= Rabs x + Rabs (x - X)) by (rewrite Rabs_minus_sym; replace X with (x + (X - x)) at 1 by ring; apply Rabs_triang); lra).
    assert (x * x = Rabs x * Rabs x) as -> by (rewrite <- Rabs_mult; symmetry; apply Rabs_pos_eq; nra). assert (X * X = Rabs X * Rabs X) as -> by (rewrite <- Rabs_mult; symmetry; apply Rabs_pos_eq; nra).
    assert (0 <= (1 - k) * Rabs X) by (apply Rmult_le_pos; lra).
    split.
    - replace ((1 - k) * (1 - k) * (Rabs X * Rabs X)) with (((1 - k) * Rabs X) * ((1 - k) * Rabs X)) by ring. apply Rmult_le_compat; assumption.
    - replace ((1 + k) * (1 + k) * (Rabs X * Rabs X)) with (((1 + k) * Rabs X) * ((1 + k) * Rabs X)) by ring. apply Rmult_le_compat; auto using Rabs_pos. }
  pose proof (Q _ _ HA). pose proof (Q _ _ HB). pose proof (Q _ _ HC).
  assert ((1 - k) * (1 - k) <= a * a + b * b + c * c <= (1 + k) * (1 + k)) as (Lo & Up).
  { replace ((1 - k) * (1 - k)) with ((1 - k) * (1 - k) * (A * A + B * B + C * C)) by (rewrite S; ring). replace ((1 + k) * (1 + k)) with ((1 + k) * (1 + k) * (A * A + B * B + C * C)) by (rewrite S; ring). lra. }
  apply Rabs_le. split.
  - assert (1 - k <= sqrt (a * a + b * b + c * c)); [|lra]. rewrite <- (sqrt_Rsqr (1 - k)) by lra. apply sqrt_le_1_alt. exact Lo.
  - assert (sqrt (a * a + b * b + c * c) <= 1 + k); [|lra]. rewrite <- (sqrt_Rsqr (1 + k)) by lra. apply sqrt_le_1_alt. exact Up.
Qed.
Lemma sum3_bounds e x y z X Y Z : (-400 <= e <= 400)%Z -> ex e 24 x X -> ex e 24 y Y -> ex e 24 z Z ->
  ex (e + e) 50 (fadd (fadd (fmul x x) (fmul y y)) (fmul z z)) (X * X + Y * Y + Z * Z) /\
  (X * X + Y * Y + Z * Z = 0 \/ bp e <= sqrt (X * X + Y * Y + Z * Z) <= bp (e + 26)).
Proof.
  intros He HX HY HZ.
  assert (ex (e + e) 50 (fadd (fadd (fmul x x) (fmul y y)) (fmul z z)) (X * X + Y * Y + Z * Z)) as S.
  { apply (ex_add (e + e) 49); [lia|lia| |apply (ex_weak _ 48); [lia|]; apply (ex_mul e e 24 24); try lia; assumption].
    apply (ex_add (e + e) 48); try lia; apply (ex_mul e e 24 24); try lia; assumption. }
  split; [exact S|]. destruct (ex_low _ _ _ _ S) as [Q|Q]; [left; exact Q|right]. rewrite Rabs_pos_eq in Q by nra. split.
  - rewrite <- (sqrt_Rsqr (bp e)) by apply bpow_ge_0. apply sqrt_le_1_alt. unfold Rsqr. rewrite <- bpow_plus. exact Q.
  - rewrite <- (sqrt_Rsqr (bp (e + 26))) by apply bpow_ge_0. apply sqrt_le_1_alt. unfold Rsqr. rewrite <- bpow_plus.
    destruct S as (_ & _ & m & Hm & ->). apply Rle_trans with (bp 50 * bp (e + e)); [|rewrite <- bpow_plus; apply bpow_le; lia].
    apply Rmult_le_compat_r; [apply bpow_ge_0|]. rewrite <- (IZR_Zpower radix2) by lia. apply IZR_le. change (radix_val radix2) with 2%Z. lia.
Qed.
Lemma comp_le X Y Z : Rabs X <= sqrt (X * X + Y * Y + Z * Z) /\ Rabs Y <= sqrt (X * X + Y * Y + Z * Z) /\ Rabs Z <= sqrt (X * X + Y * Y + Z * Z).
Proof. repeat split; rewrite <- sqrt_Rsqr_abs; apply sqrt_le_1_alt; unfold Rsqr; nra. Qed.
Lemma unit_sum X Y Z : let h := sqrt (X * X + Y * Y + Z * Z) in 0 < h -> X / h * (X / h) + Y / h * (Y / h) + Z / h * (Z / h) = 1.
Proof.
  intros h H. assert (h * h = X * X + Y * Y + Z * Z) as E by (apply sqrt_sqrt; nra).
  replace (X / h * (X / h) + Y / h * (Y / h) + Z / h * (Z / h)) with ((X * X + Y * Y + Z * Z) / (h * h)) by (field; lra). rewrite E. field. rewrite <- E. nra.
Qed.
(** [length] and [distance] are within a unit in the last place. *)
Theorem C62_length : forall hypot e u v, hypot_accurate hypot -> (-400 <= e <= 400)%Z -> vec e u -> vec e v ->
  close_to (v2_length hypot u) (norm (rv u)) /\ close_to (v2_distance hypot u v) (dist (rv u) (rv v)) /\
  (R_of (v2_length hypot u) = 0 <-> rv u = mkP 0 0).
Proof.
  intros hypot e u v Hh He Hu Hv. pose proof Hu as Hu'. pose proof Hv as Hv'. apply vec_ex in Hu, Hv. destruct Hu as (X & Y), Hv as (X' & Y').
  assert (norm (rv u) = 0 \/ bp e <= norm (rv u) <= bp (e + 26)) as BN.
  { destruct (sum3_bounds e _ _ _ _ _ _ He X Y (ex_0 e 24 ltac:(lia))) as (_ & B). rewrite Rmult_0_r, Rplus_0_r in B. unfold norm, rv. cbn [px py]. destruct B as [B|B]; [left; rewrite B; apply sqrt_0|right; exact B]. }
  assert (close_to (v2_length hypot u) (norm (rv u))) as C.
  { destruct (Hh _ _ (ex_fin _ _ _ _ X) (ex_fin _ _ _ _ Y)) as (F & E).
    - fold (norm (rv u)). change (sqrt (R_of (vx u) * R_of (vx u) + R_of (vy u) * R_of (vy u))) with (norm (rv u)). destruct BN as [B|B]; [left; exact B|right].
      split; [eapply Rle_trans; [|apply B]|eapply Rle_trans; [apply B|]]; apply bpow_le; lia.
    - change (sqrt (R_of (vx u) * R_of (vx u) + R_of (vy u) * R_of (vy u))) with (norm (rv u)) in E. split; [exact F|]. eapply Rle_trans; [exact E|].
      apply Rmult_le_compat_r; [apply sqrt_pos|apply bpow_le; lia]. }
  split; [exact C|]. split.
  - pose proof (C74_distance_plane hypot e (new_xy (vx v) (vy v)) (new_xy (vx u) (vy u)) Hh He) as D. rewrite Distance_proofs.dist_sym. apply D; assumption.
  - assert (0 <= norm (rv u)) as N0 by apply sqrt_pos. rewrite (close_zero _ _ N0 C). unfold norm, rv. cbn [px py]. split.
    + intros Z. apply sqrt_eq_0 in Z; [|nra]. f_equal; nra.
    + intros Q. injection Q as -> ->. rewrite Rmult_0_l, Rplus_0_l. apply sqrt_0.
Qed.
(** [normalize] gives a vector of length 1 up to 2^-51, each component within a
    relative 2^-51 of the exact one; the zero vector stays zero, and so does a
    vector whose length is NaN. *)
Theorem C62_normalize : forall hypot e u, hypot_accurate hypot -> (-400 <= e <= 400)%Z -> vec e u ->
  let w := v2_normalize hypot u in finv w /\
  (rv u <> mkP 0 0 -> Rabs (norm (rv w) - 1) <= bp (-51) /\
     Rabs (R_of (vx w) - R_of (vx u) / norm (rv u)) <= bp (-51) * Rabs (R_of (vx u) / norm (rv u)) /\
     Rabs (R_of (vy w) - R_of (vy u) / norm (rv u)) <= bp (-51) * Rabs (R_of (vy u) / norm (rv u))) /\
  (rv u = mkP 0 0 -> w = mkV2 f0 f0).
Proof.
  intros hypot e u Hh He Hu w. pose proof Hu as Hu'. apply vec_ex in Hu. destruct Hu as (X & Y).
  destruct (C62_length hypot e u u Hh He Hu' Hu') as ((FL & CL) & _ & ZL). unfold w, v2_normalize. cbv zeta. set (L := v2_length hypot u) in *.
  assert (fgtb L f0 = Rlt_bool 0 (R_of L)) as G by (unfold fgtb; change (@Bltb 53 1024) with fltb; rewrite fltb_R by (reflexivity || assumption); reflexivity). rewrite G. clear G.
  assert (0 <= norm (rv u)) as N0 by apply sqrt_pos.
  destruct (sum3_bounds e _ _ _ _ _ _ He X Y (ex_0 e 24 ltac:(lia))) as (_ & B). rewrite Rmult_0_r, Rplus_0_r in B.
  change (sqrt (R_of (vx u) * R_of (vx u) + R_of (vy u) * R_of (vy u))) with (norm (rv u)) in B.
  assert (0 <= R_of L) as L0.
  { assert (bp (-51) <= 1) by (change 1 with (bp 0); apply bpow_le; lia). apply Rabs_le_inv in CL. assert (bp (-51) * norm (rv u) <= 1 * norm (rv u)) by (apply Rmult_le_compat_r; lra). lra. }
  destruct (Req_dec (R_of L) 0) as [Z|NZ].
  { rewrite Z, Rlt_bool_false by lra. split; [split; reflexivity|]. split; [|reflexivity]. intros N. apply ZL in Z. contradiction. }
  rewrite Rlt_bool_true by lra. assert (rv u <> mkP 0 0) as NE by (intros Q; apply NZ, ZL, Q).
  destruct B as [B|B]. { exfalso. apply NE. unfold rv. f_equal; nra. }
  destruct (Hh _ _ (ex_fin _ _ _ _ X) (ex_fin _ _ _ _ Y)) as (F & E).
  { change (sqrt (R_of (vx u) * R_of (vx u) + R_of (vy u) * R_of (vy u))) with (norm (rv u)). right. split; [eapply Rle_trans; [|apply B]|eapply Rle_trans; [apply B|]]; apply bpow_le; lia. }
  change (sqrt (R_of (vx u) * R_of (vx u) + R_of (vy u) * R_of (vy u))) with (norm (rv u)) in E. change (hypot (vx u) (vy u)) with L in E. rewrite bp52 in E.
  pose proof (comp_le (R_of (vx u)) (R_of (vy u)) 0) as (C1 & C2 & _). rewrite Rmult_0_r, Rplus_0_r in C1, C2. 
  destruct (unit_div e _ _ L (norm (rv u)) He X F E B C1) as (F1 & E1). destruct (unit_div e _ _ L (norm (rv u)) He Y F E B C2) as (F2 & E2).
  split; [split; assumption|]. split; [intros _|intros Q; contradiction]. split; [|split; assumption].
  unfold norm at 1, rv at 1 2 3 4. cbn [px py v2_div vx vy]. pose proof (bpow_gt_0 radix2 e).
  assert (let h := norm (rv u) in R_of (vx u) / h * (R_of (vx u) / h) + R_of (vy u) / h * (R_of (vy u) / h) + 0 * 0 = 1) as S.
  { pose proof (unit_sum (R_of (vx u)) (R_of (vy u)) 0) as S. rewrite Rmult_0_r, Rplus_0_r in S. change (sqrt (R_of (vx u) * R_of (vx u) + R_of (vy u) * R_of (vy u))) with (norm (rv u)) in S.
    cbv zeta in *. rewrite <- (S ltac:(lra)). field. lra. }
  cbv zeta in S. pose proof (norm_unit _ _ 0 _ _ 0 (bp (-51)) ltac:(split; [apply bpow_ge_0|change 1 with (bp 0); apply bpow_le; lia]) S E1 E2) as U.
  rewrite Rmult_0_r, Rplus_0_r in U. apply U. rewrite Rminus_0_r, Rabs_R0. lra.
Qed.

(** ** Angles, rotation, parallels, mixtures *)
Lemma vec_origin : wide_pt (new_xy f0 f0).
Proof. split; (split; [reflexivity|]); cbn [cx cy new_xy]; change (R_of f0) with 0; rewrite Rabs_R0; apply bpow_ge_0. Qed.
(** [angle] is a direction of the vector, [angle_to] the turn from one vector to
    the other in (-pi, pi], [angle_vector_2d] its size in [0, pi]. *)
Theorem C62_angles : forall atan2 u v s t, atan2_accurate atan2 ->
  bf 1022 (vx u) -> bf 1022 (vy u) -> bf 1022 (vx v) -> bf 1022 (vy v) -> rv u <> mkP 0 0 -> rv v <> mkP 0 0 ->
  direction s (R_of (vx u)) (R_of (vy u)) -> direction t (R_of (vx v)) (R_of (vy v)) ->
  (exists k, Rabs (R_of (v2_angle atan2 u) - (s + 2 * IZR k * PI)) <= bp (-51)) /\
  (let o := v2_angle_to atan2 u v in fis_finite o = true /\ - PI < R_of o <= PI /\ exists k, Rabs (R_of o - (t - s + 2 * IZR k * PI)) <= bp (-48)) /\
  (let o := v2_angle_between atan2 u v in fis_finite o = true /\ 0 <= R_of o <= PI /\
     exists k, Rabs (R_of o - (t - s + 2 * IZR k * PI)) <= bp (-48) \/ Rabs (R_of o - (s - t + 2 * IZR k * PI)) <= bp (-48)).
Proof.
  intros atan2 u v s t A Ux Uy Vx Vy Nu Nv Ds Dt. set (o := new_xy f0 f0). set (pu := new_xy (vx u) (vy u)). set (pv := new_xy (vx v) (vy v)).
  assert (rpt o = mkP 0 0) as Ro by reflexivity.
  assert (seen s o pu) as Su by (unfold seen; cbn [o pu new_xy cx cy]; change (R_of f0) with 0; rewrite !Rminus_0_r; exact Ds).
  assert (seen t o pv) as Sv by (unfold seen; cbn [o pv new_xy cx cy]; change (R_of f0) with 0; rewrite !Rminus_0_r; exact Dt).
  assert (forall w, angle_coordinates atan2 o (new_xy (vx w) (vy w)) = v2_angle atan2 w) as AC.
  { intros w. unfold angle_coordinates, v2_angle, o. cbn [new_xy cx cy]. now rewrite !fsub_0. }
  assert (rpt o <> rpt pu) as N1 by (rewrite Ro; intros Q; apply Nu; symmetry; exact Q).
  assert (rpt o <> rpt pv) as N2 by (rewrite Ro; intros Q; apply Nv; symmetry; exact Q).
  assert (wide_pt pu /\ wide_pt pv) as (Hu & Hv) by (split; split; assumption).
  destruct (C55_angle_between_of atan2 pu o pv s t A Hu vec_origin Hv N1 N2 Su Sv) as (B1 & _).
  destruct (C55_angle_between_of atan2 pv o pu t s A Hv vec_origin Hu N2 N1 Sv Su) as (_ & B2).
  split; [|split].
  - destruct (A (vy u) (vx u)) as (_ & t' & D' & E); [apply Uy|apply Ux| |].
    { destruct (Req_dec (R_of (vx u)) 0) as [Z|Z]; [|now left]. destruct (Req_dec (R_of (vy u)) 0) as [W|W]; [|now right].
      exfalso. apply Nu. unfold rv. now rewrite Z, W. }
    destruct (direction_unique _ _ _ _ D' Ds) as (k & ->). now exists k.
  - unfold angle_between_oriented, pu, pv in B1. rewrite !AC in B1. exact B1.
  - unfold angle_between, pu, pv in B2. rewrite !AC in B2. cbv zeta in *. destruct B2 as (F & R & k & [E|E]); (split; [exact F|]; split; [exact R|]); exists k; [right|left]; exact E.
Qed.
(** [rotate] is the rotation by the angle up to rounding. *)
Lemma rot_val x y c s C S sg : fis_finite x = true -> fis_finite y = true -> fis_finite c = true -> fis_finite s = true ->
  Rabs (R_of x) <= bp 1000 -> Rabs (R_of y) <= bp 1000 -> Rabs C <= 1 -> Rabs S <= 1 -> Rabs (R_of c - C) <= bp (-52) -> Rabs (R_of s - S) <= bp (-52) ->
  let r := if sg : bool then fsub (fmul x c) (fmul y s) else fadd (fmul x c) (fmul y s) in
  fis_finite r = true /\ Rabs (R_of r - (R_of x * C + (if sg then - 1 else 1) * (R_of y * S))) <= 5 * u53 * (Rabs (R_of x) + Rabs (R_of y)) + bp (-1073).
Proof.
  intros Fx Fy Fc Fs Bx By_ BC BS EC ES. cbv zeta. rewrite bp52 in EC, ES. pose proof u53_pos as U0. pose proof u53_small as U1.
  assert (forall x c C, fis_finite x = true -> fis_finite c = true -> Rabs (R_of x) <= bp 1000 -> Rabs C <= 1 -> Rabs (R_of c - C) <= 2 * u53 ->
    (bf 1001 (fmul x c)) /\ Rabs (R_of (fmul x c) - R_of x * C) <= (3 * u53 + / 10 * u53) * Rabs (R_of x) + bp (-1075)) as M.
  { clear - U0 U1. intros x c C Fx Fc Bx BC EC. pose proof (Rabs_pos (R_of x)) as PX.
    assert (0 <= u53 * Rabs (R_of x) <= / 1024 * Rabs (R_of x)) as UX by (split; [apply Rmult_le_pos; lra|apply Rmult_le_compat_r; lra]).
    assert (Rabs (R_of x * R_of c - R_of x * C) <= 2 * u53 * Rabs (R_of x)) as E1.
    { rewrite <- Rmult_minus_distr_l, Rabs_mult, Rmult_comm. apply Rmult_le_compat_r; assumption. }
    assert (Rabs (R_of x * C) <= Rabs (R_of x)) as E2 by (rewrite Rabs_mult; rewrite <- (Rmult_1_r (Rabs (R_of x))) at 2; apply Rmult_le_compat_l; assumption).
    assert (Rabs (R_of x * R_of c) <= Rabs (R_of x) + 2 * u53 * Rabs (R_of x)) as E3.
    { replace (R_of x * R_of c) with (R_of x * C + (R_of x * R_of c - R_of x * C)) by ring. eapply Rle_trans; [apply Rabs_triang|]; lra. }
    destruct (mul_fits 1001 x c ltac:(lia) Fx Fc) as (B & E); [change 1001%Z with (1000 + 1)%Z; rewrite bp_S; lra|]. split; [exact B|]. rewrite E.
    replace (RN (R_of x * R_of c) - R_of x * C) with ((RN (R_of x * R_of c) - R_of x * R_of c) + (R_of x * R_of c - R_of x * C)) by ring.
    eapply Rle_trans; [apply Rabs_triang|]. pose proof (RN_err (R_of x * R_of c)) as RE.
    assert (u53 * Rabs (R_of x * R_of c) <= u53 * (Rabs (R_of x) + 2 * u53 * Rabs (R_of x))) by (apply Rmult_le_compat_l; lra).
    assert (u53 * (u53 * Rabs (R_of x)) <= / 1024 * (u53 * Rabs (R_of x))) by (apply Rmult_le_compat_r; lra). lra. }
  destruct (M x c C Fx Fc Bx BC EC) as (B1 & E1). destruct (M y s S Fy Fs By_ BS ES) as (B2 & E2). set (a := fmul x c) in *. set (b := fmul y s) in *.
  pose proof (Rabs_pos (R_of x)) as PX. pose proof (Rabs_pos (R_of y)) as PY. set (N := Rabs (R_of x) + Rabs (R_of y)) in *.
  assert (Rabs (R_of x * C) <= Rabs (R_of x)) as Q1 by (rewrite Rabs_mult; rewrite <- (Rmult_1_r (Rabs (R_of x))) at 2; apply Rmult_le_compat_l; assumption).
  assert (Rabs (R_of y * S) <= Rabs (R_of y)) as Q2 by (rewrite Rabs_mult; rewrite <- (Rmult_1_r (Rabs (R_of y))) at 2; apply Rmult_le_compat_l; assumption).
  assert (0 <= u53 * N <= / 1024 * N) as UN by (split; [apply Rmult_le_pos; unfold N; lra|apply Rmult_le_compat_r; unfold N; lra]).
  assert (bp (-1073) = 4 * bp (-1075)) as B73 by (change (-1073)%Z with (-1075 + 1 + 1)%Z; rewrite !bp_S; ring). pose proof (bpow_gt_0 radix2 (-1075)) as B75.
  assert ((3 * u53 + / 10 * u53) * Rabs (R_of x) + (3 * u53 + / 10 * u53) * Rabs (R_of y) = 3 * (u53 * N) + / 10 * (u53 * N)) as SU by (unfold N; ring).
  assert (u53 * bp (-1075) <= / 1024 * bp (-1075)) by (apply Rmult_le_compat_r; lra).
  set (sgn := if sg then -1 else 1). assert (Rabs sgn = 1) as SG by (unfold sgn; destruct sg; [rewrite Rabs_left|rewrite Rabs_right]; lra).
  assert (Rabs ((R_of a + sgn * R_of b) - (R_of x * C + sgn * (R_of y * S))) <= 3 * (u53 * N) + / 10 * (u53 * N) + 2 * bp (-1075)) as E3.
  { replace ((R_of a + sgn * R_of b) - (R_of x * C + sgn * (R_of y * S))) with ((R_of a - R_of x * C) + sgn * (R_of b - R_of y * S)) by ring.
    eapply Rle_trans; [apply Rabs_triang|]. rewrite (Rabs_mult sgn), SG. lra. }
  assert (Rabs (R_of a + sgn * R_of b) <= N + (3 * (u53 * N) + / 10 * (u53 * N) + 2 * bp (-1075))) as E4.
  { replace (R_of a + sgn * R_of b) with ((R_of x * C + sgn * (R_of y * S)) + ((R_of a + sgn * R_of b) - (R_of x * C + sgn * (R_of y * S)))) by ring.
    eapply Rle_trans; [apply Rabs_triang|]. apply Rplus_le_compat; [|exact E3]. eapply Rle_trans; [apply Rabs_triang|]. rewrite (Rabs_mult sgn), SG. unfold N. lra. }
  assert (fmt (R_of a) /\ fmt (sgn * R_of b)) as (Ga & Gb).
  { split; [apply format_R|]. unfold sgn. destruct sg; [replace (-1 * R_of b) with (R_of (fneg b)) by (rewrite fneg_R; ring)|rewrite Rmult_1_l]; apply format_R. }
  pose proof (RN_sum_err _ _ Ga Gb) as RS.
  assert (u53 * Rabs (R_of a + sgn * R_of b) <= u53 * (N + (3 * (u53 * N) + / 10 * (u53 * N) + 2 * bp (-1075)))) by (apply Rmult_le_compat_l; lra).
  assert (u53 * (u53 * N) <= / 1024 * (u53 * N)) by (apply Rmult_le_compat_r; lra).
  assert (forall r, R_of r = RN (R_of a + sgn * R_of b) -> Rabs (R_of r - (R_of x * C + sgn * (R_of y * S))) <= 5 * u53 * N + bp (-1073)) as FIN.
  { intros r ->. replace (RN (R_of a + sgn * R_of b) - (R_of x * C + sgn * (R_of y * S))) with
      ((RN (R_of a + sgn * R_of b) - (R_of a + sgn * R_of b)) + ((R_of a + sgn * R_of b) - (R_of x * C + sgn * (R_of y * S)))) by ring.
    eapply Rle_trans; [apply Rabs_triang|]. rewrite B73. lra. }
  destruct sg.
  - destruct (bf_sub 1001 a b ltac:(lia) B1 B2) as ((F & _) & E). split; [exact F|]. apply FIN. rewrite E. f_equal. unfold sgn. ring.
  - destruct (bf_add 1001 a b ltac:(lia) B1 B2) as ((F & _) & E). split; [exact F|]. apply FIN. rewrite E. f_equal. unfold sgn. ring.
Qed.
Theorem C62_rotate : forall sn cn u ang, trig_accurate sn sin -> trig_accurate cn cos -> finv u -> fis_finite ang = true ->
  Rabs (R_of (vx u)) <= bp 1000 -> Rabs (R_of (vy u)) <= bp 1000 ->
  let w := v2_rotate sn cn u ang in let err := 5 * u53 * (Rabs (R_of (vx u)) + Rabs (R_of (vy u))) + bp (-1073) in finv w /\
  Rabs (R_of (vx w) - (R_of (vx u) * cos (R_of ang) - R_of (vy u) * sin (R_of ang))) <= err /\
  Rabs (R_of (vy w) - (R_of (vx u) * sin (R_of ang) + R_of (vy u) * cos (R_of ang))) <= err.
Proof.
  intros sn cn u ang Hs Hc (Fx & Fy) Fa Bx By_. cbv zeta. destruct (Hs ang Fa) as (Fs & Es), (Hc ang Fa) as (Fc & Ec).
  assert (Rabs (cos (R_of ang)) <= 1) as BC by (apply Rabs_le, COS_bound). assert (Rabs (sin (R_of ang)) <= 1) as BS by (apply Rabs_le, SIN_bound).
  destruct (rot_val _ _ _ _ _ _ true Fx Fy Fc Fs Bx By_ BC BS Ec Es) as (F1 & E1). destruct (rot_val _ _ _ _ _ _ false Fx Fy Fs Fc Bx By_ BS BC Es Ec) as (F2 & E2).
  split; [split; assumption|]. split; [|rewrite Rmult_1_l in E2; exact E2].
  replace (R_of (vx u) * cos (R_of ang) - R_of (vy u) * sin (R_of ang)) with (R_of (vx u) * cos (R_of ang) + -1 * (R_of (vy u) * sin (R_of ang))) by ring. exact E1.
Qed.
(** [is_parallel] is exact on grids. *)
Theorem C62_parallel : forall e u v, (-400 <= e <= 400)%Z -> vec e u -> vec e v ->
  v2_is_parallel u v = true <-> R_of (vx u) * R_of (vy v) = R_of (vy u) * R_of (vx v).
Proof.
  intros e u v He ((a & Ha & Ga) & (b & Hb & Gb)) ((c & Hc & Gc) & (d & Hd & Gd)).
  destruct (C72_determinant_f64 e _ _ _ _ a b c d He Ga Gb Gc Gd) as (_ & _ & S); try lia. unfold v2_is_parallel. rewrite Z.eqb_eq.
  destruct S as [(-> & S)|[(-> & S)|(-> & S)]]; split; intros; try reflexivity; try discriminate; lra.
Qed.
(** [weighted_sum] with a fraction between 0 and 1. *)
Theorem C62_weighted : forall u v fr, finv u -> finv v -> fis_finite fr = true -> 0 <= R_of fr <= 1 ->
  Rabs (R_of (vx u)) <= bp 1000 -> Rabs (R_of (vy u)) <= bp 1000 -> Rabs (R_of (vx v)) <= bp 1000 -> Rabs (R_of (vy v)) <= bp 1000 ->
  let w := v2_weighted u v fr in finv w /\
  Rabs (R_of (vx w) - (R_of fr * R_of (vx u) + (1 - R_of fr) * R_of (vx v))) <= 5 * u53 * (Rabs (R_of (vx u)) + Rabs (R_of (vx v))) + bp (-1073) /\
  Rabs (R_of (vy w) - (R_of fr * R_of (vy u) + (1 - R_of fr) * R_of (vy v))) <= 5 * u53 * (Rabs (R_of (vy u)) + Rabs (R_of (vy v))) + bp (-1073).
Proof.
  intros u v fr (F1 & F2) (F3 & F4) Ff Bf B1 B2 B3 B4. cbv zeta.
  destruct (sub_fits 0 f1 fr ltac:(lia) eq_refl Ff) as ((Fg & _) & Eg); [rewrite R_of_f1; change (bp 0) with 1; rewrite Rabs_pos_eq; lra|]. rewrite R_of_f1 in Eg.
  assert (Rabs (R_of (fsub f1 fr) - (1 - R_of fr)) <= bp (-52)) as E1.
  { rewrite Eg. assert (fmt 1) as G1 by (rewrite <- R_of_f1; apply format_R). pose proof (RN_sub_err 1 (R_of fr) G1 (format_R fr)) as E. eapply Rle_trans; [exact E|]. rewrite bp52. rewrite Rabs_pos_eq by lra.
    pose proof u53_pos. nra. }
  assert (Rabs (R_of fr - R_of fr) <= bp (-52)) as E0 by (rewrite Rminus_eq_0, Rabs_R0; apply bpow_ge_0).
  assert (Rabs (R_of fr) <= 1) as C1 by (apply Rabs_le; lra). assert (Rabs (1 - R_of fr) <= 1) as C2 by (apply Rabs_le; lra).
  destruct (rot_val _ _ _ _ _ _ false F1 F3 Ff Fg B1 B3 C1 C2 E0 E1) as (P1 & Q1). destruct (rot_val _ _ _ _ _ _ false F2 F4 Ff Fg B2 B4 C1 C2 E0 E1) as (P2 & Q2).
  unfold v2_weighted. cbn [vx vy]. rewrite !(fmul_comm fr), !(fmul_comm (fsub f1 fr)). split; [split; assumption|]. rewrite Rmult_1_l in Q1, Q2.
  rewrite !(Rmult_comm (R_of fr)), !(Rmult_comm (1 - R_of fr)). split; assumption.
Qed.

(** ** Vectors of space *)
Definition vec3 (e : Z) (u : V3) : Prop := forall c, c = wx u \/ c = wy u \/ c = wz u -> exists n, (Z.abs n <= 2 ^ 24)%Z /\ grid e c n.
Definition finv3 (u : V3) : Prop := fis_finite (wx u) = true /\ fis_finite (wy u) = true /\ fis_finite (wz u) = true.
Definition rv3 (u : V3) : P3 R := mkP3 (R_of (wx u)) (R_of (wy u)) (R_of (wz u)).
Definition norm3 (p : P3 R) : R := sqrt (qx p * qx p + qy p * qy p + qz p * qz p).
Definition scalar3 (p q : P3 R) : R := qx p * qx q + qy p * qy q + qz p * qz q.
Lemma vec3_ex e u : vec3 e u -> ex e 24 (wx u) (R_of (wx u)) /\ ex e 24 (wy u) (R_of (wy u)) /\ ex e 24 (wz u) (R_of (wz u)).
Proof.
  intros H. destruct (H (wx u)) as (a & Ha & Ga); [auto|]. destruct (H (wy u)) as (b & Hb & Gb); [auto|]. destruct (H (wz u)) as (c & Hc & Gc); [auto|].
  repeat split; first [apply (ex_self e 24 _ _ Ha Ga)|apply (ex_self e 24 _ _ Hb Gb)|apply (ex_self e 24 _ _ Hc Gc)].
Qed.
(** Sums, differences and scalar products are exact on grids. *)
Theorem C62_exact3 : forall e u v, (-400 <= e <= 400)%Z -> vec3 e u -> vec3 e v ->
  (finv3 (v3_add u v) /\ rv3 (v3_add u v) = mkP3 (R_of (wx u) + R_of (wx v)) (R_of (wy u) + R_of (wy v)) (R_of (wz u) + R_of (wz v))) /\
  (finv3 (v3_sub u v) /\ rv3 (v3_sub u v) = mkP3 (R_of (wx u) - R_of (wx v)) (R_of (wy u) - R_of (wy v)) (R_of (wz u) - R_of (wz v))) /\
  (fis_finite (v3_dot u v) = true /\ R_of (v3_dot u v) = scalar3 (rv3 u) (rv3 v)).
Proof.
  intros e u v He Hu Hv. apply vec3_ex in Hu, Hv. destruct Hu as (X & Y & Z), Hv as (X' & Y' & Z').
  pose proof (ex_add e 24 _ _ _ _ ltac:(lia) ltac:(lia) X X') as A1. pose proof (ex_add e 24 _ _ _ _ ltac:(lia) ltac:(lia) Y Y') as A2. pose proof (ex_add e 24 _ _ _ _ ltac:(lia) ltac:(lia) Z Z') as A3.
  pose proof (ex_sub e 24 _ _ _ _ ltac:(lia) ltac:(lia) X X') as S1. pose proof (ex_sub e 24 _ _ _ _ ltac:(lia) ltac:(lia) Y Y') as S2. pose proof (ex_sub e 24 _ _ _ _ ltac:(lia) ltac:(lia) Z Z') as S3.
  assert (ex (e + e) 50 (v3_dot u v) (scalar3 (rv3 u) (rv3 v))) as D.
  { apply (ex_add (e + e) 49); [lia|lia| |apply (ex_weak _ 48); [lia|]; apply (ex_mul e e 24 24); try lia; assumption].
    apply (ex_add (e + e) 48); try lia; apply (ex_mul e e 24 24); try lia; assumption. }
  split; [|split; [|split; [apply (ex_fin _ _ _ _ D)|apply (ex_R _ _ _ _ D)]]]; unfold finv3, rv3, v3_add, v3_sub; cbn [wx wy wz].
  - rewrite (ex_R _ _ _ _ A1), (ex_R _ _ _ _ A2), (ex_R _ _ _ _ A3), (ex_fin _ _ _ _ A1), (ex_fin _ _ _ _ A2), (ex_fin _ _ _ _ A3). auto.
  - rewrite (ex_R _ _ _ _ S1), (ex_R _ _ _ _ S2), (ex_R _ _ _ _ S3), (ex_fin _ _ _ _ S1), (ex_fin _ _ _ _ S2), (ex_fin _ _ _ _ S3). auto.
Qed.
(** The scalar products of coordinates are those of the vectors. *)
Theorem C62_dot_coordinates : forall a b c d,
  v3_dot_2 a b = v3_dot (v3_of_coordinate a) (v3_of_coordinate b) /\ v3_dot_4 a b c d = v3_dot (v3_from_to a b) (v3_from_to c d) /\
  v3_dot_4 a b c d = v3_dot_4 c d a b /\ v3_dot_2 a b = v3_dot_2 b a /\ v3_length_of_coordinate a = v3_length (v3_of_coordinate a).
Proof.
  intros. unfold v3_dot_4, v3_dot_2, v3_dot, v3_from_to, v3_of_coordinate, v3_length, v3_length_of_coordinate. cbv zeta. cbn [wx wy wz].
  split; [reflexivity|]. split; [reflexivity|]. split; [|split; [|reflexivity]].
  - rewrite (fmul_comm (fsub (cx b) _)), (fmul_comm (fsub (cy b) _)), (fmul_comm (fsub (cz b) _)). reflexivity.
  - rewrite (fmul_comm (cx a)), (fmul_comm (cy a)), (fmul_comm (cz a)). reflexivity.
Qed.
(** The length is the nearest double, and the normalized vector has length 1 up
    to 2^-51; [normalize_coordinate] agrees except on the zero vector. *)
Theorem C62_length3 : forall e u, (-400 <= e <= 400)%Z -> vec3 e u ->
  fis_finite (v3_length u) = true /\ R_of (v3_length u) = RN (norm3 (rv3 u)) /\
  (rv3 u = mkP3 0 0 0 -> v3_normalize u = mkV3 f0 f0 f0) /\
  (rv3 u <> mkP3 0 0 0 -> let w := v3_normalize u in finv3 w /\ Rabs (norm3 (rv3 w) - 1) <= bp (-51) /\
     Rabs (R_of (wx w) - R_of (wx u) / norm3 (rv3 u)) <= bp (-51) * Rabs (R_of (wx u) / norm3 (rv3 u)) /\
     Rabs (R_of (wy w) - R_of (wy u) / norm3 (rv3 u)) <= bp (-51) * Rabs (R_of (wy u) / norm3 (rv3 u)) /\
     Rabs (R_of (wz w) - R_of (wz u) / norm3 (rv3 u)) <= bp (-51) * Rabs (R_of (wz u) / norm3 (rv3 u))).
Proof.
  intros e u He Hu. apply vec3_ex in Hu. destruct Hu as (X & Y & Z). destruct (sum3_bounds e _ _ _ _ _ _ He X Y Z) as (S & B).
  set (x := R_of (wx u)) in *. set (y := R_of (wy u)) in *. set (z := R_of (wz u)) in *. assert (0 <= x * x + y * y + z * z) as S0 by nra.
  destruct (sqrt_round (e + e) 50 _ _ ltac:(lia) ltac:(lia) S S0) as (EL & FL). change (norm3 (rv3 u)) with (sqrt (x * x + y * y + z * z)). fold (v3_length u) in EL, FL.
  split; [exact FL|]. split; [exact EL|]. set (h := sqrt (x * x + y * y + z * z)) in *.
  assert (fgtb (v3_length u) f0 = Rlt_bool 0 (R_of (v3_length u))) as G by (unfold fgtb; change (@Bltb 53 1024) with fltb; rewrite fltb_R by (reflexivity || assumption); reflexivity).
  unfold v3_normalize. cbv zeta. rewrite G, EL. pose proof u53_pos as U0. pose proof (bpow_gt_0 radix2 e) as Be.
  destruct B as [B|B].
  { assert (h = 0) as -> by (unfold h; rewrite B; apply sqrt_0). rewrite RN_0, Rlt_bool_false by lra. split; [reflexivity|]. intros N. exfalso. apply N. unfold rv3. fold x y z. f_equal; nra. }
  assert (0 < h) as H0 by lra. assert (bp e <= RN h) as RL by (rewrite <- (RN_id (bp e)) by (apply bpow_fmt; lia); apply RN_le; lra).
  rewrite Rlt_bool_true by lra. split.
  { intros Q. exfalso. injection Q as Q1 Q2 Q3. assert (h = 0) as -> by (unfold h, x, y, z; rewrite Q1, Q2, Q3, Rmult_0_l, !Rplus_0_l; apply sqrt_0). lra. }
  intros _. assert (Rabs (R_of (v3_length u) - h) <= 2 * u53 * h) as EH.
  { rewrite EL. eapply Rle_trans; [apply RN_rel; right; rewrite Rabs_pos_eq by lra; eapply Rle_trans; [|apply B]; apply bpow_le; lia|]. rewrite Rabs_pos_eq by lra. nra. }
  destruct (comp_le x y z) as (C1 & C2 & C3). fold h in C1, C2, C3.
  destruct (unit_div e _ _ _ _ He X FL EH B C1) as (F1 & E1). destruct (unit_div e _ _ _ _ He Y FL EH B C2) as (F2 & E2). destruct (unit_div e _ _ _ _ He Z FL EH B C3) as (F3 & E3).
  unfold finv3, v3_div. cbn [wx wy wz]. split; [auto|]. split; [|auto].
  apply (norm_unit _ _ _ (x / h) (y / h) (z / h)); try assumption; [split; [apply bpow_ge_0|change 1 with (bp 0); apply bpow_le; lia]|]. apply unit_sum. exact H0.
Qed.
Theorem C62_normalize_coordinate : forall e c, (-400 <= e <= 400)%Z -> vec3 e (v3_of_coordinate c) ->
  let w := v3_normalize_coordinate c in
  (rv3 (v3_of_coordinate c) <> mkP3 0 0 0 -> v3_of_coordinate w = v3_normalize (v3_of_coordinate c)) /\
  (rv3 (v3_of_coordinate c) = mkP3 0 0 0 -> fis_nan (cx w) = true /\ fis_nan (cy w) = true /\ fis_nan (cz w) = true).
Proof.
  intros e c He Hc w. pose proof (vec3_ex _ _ Hc) as (X & Y & Z). destruct (sum3_bounds e _ _ _ _ _ _ He X Y Z) as (S & B). destruct (C62_length3 e _ He Hc) as (FL & EL & _ & _).
  unfold w, v3_normalize_coordinate, v3_normalize. cbv zeta. change (v3_length_of_coordinate c) with (v3_length (v3_of_coordinate c)). set (L := v3_length (v3_of_coordinate c)) in *.
  assert (fgtb L f0 = Rlt_bool 0 (R_of L)) as G by (unfold fgtb; change (@Bltb 53 1024) with fltb; rewrite fltb_R by (reflexivity || assumption); reflexivity).
  cbn [v3_of_coordinate wx wy wz] in *. split.
  - intros N. destruct B as [B|B]; [exfalso; apply N; unfold rv3, v3_of_coordinate; cbn [wx wy wz]; f_equal; nra|].
    rewrite G, EL. assert (bp e <= RN (norm3 (rv3 (v3_of_coordinate c)))) by (rewrite <- (RN_id (bp e)) by (apply bpow_fmt; lia); apply RN_le; apply B). pose proof (bpow_gt_0 radix2 e).
    rewrite Rlt_bool_true by lra. reflexivity.
  - intros Q. injection Q as Q1 Q2 Q3. unfold norm3, rv3 in EL. cbn [qx qy qz v3_of_coordinate wx wy wz] in EL. rewrite Q1, Q2, Q3, Rmult_0_l, !Rplus_0_l, sqrt_0, RN_0 in EL.
    destruct (fin_zero _ FL EL) as (s & ->). destruct (fin_zero _ (ex_fin _ _ _ _ X) Q1) as (s1 & ->). destruct (fin_zero _ (ex_fin _ _ _ _ Y) Q2) as (s2 & ->). destruct (fin_zero _ (ex_fin _ _ _ _ Z) Q3) as (s3 & ->).
    repeat split; reflexivity.
Qed.
(** The plain sum of squares under- and overflows: a tiny vector and a huge one
    are "normalized" to zero, although the plane version is not affected. *)
Theorem C62_normalize3_tiny_refuted :
  ~ (forall u, finv3 u -> rv3 u <> mkP3 0 0 0 -> Rabs (norm3 (rv3 (v3_normalize u)) - 1) <= / 2).
Proof.
  intros H. assert (forall k, (-1074 <= k <= 970)%Z -> finv3 (mkV3 (mkf 1 k) f0 f0) /\ rv3 (mkV3 (mkf 1 k) f0 f0) <> mkP3 0 0 0) as V.
  { intros k K. destruct (grid_mkf 1 k K ltac:(cbn; lia)) as (F & E). split; [repeat split; exact F || reflexivity|]. unfold rv3. cbn [wx]. rewrite E. intros Q. injection Q. intros. pose proof (bpow_gt_0 radix2 k). lra. }
  destruct (V (-600)%Z ltac:(lia)) as (F & N). specialize (H _ F N).
  assert (norm3 (rv3 (v3_normalize (mkV3 (mkf 1 (-600)) f0 f0))) = 0) as Z.
  { assert (fgtb (v3_length (mkV3 (mkf 1 (-600)) f0 f0)) f0 = false) as G by (vm_compute; reflexivity). unfold v3_normalize. cbv zeta. rewrite G.
    unfold norm3, rv3. cbn [qx qy qz wx wy wz]. change (R_of f0) with 0. rewrite Rmult_0_l, !Rplus_0_l. apply sqrt_0. }
  rewrite Z in H. rewrite Rabs_left in H; lra.
Qed.
(** (3, 4) and (-4, 3); (2, 3, 6) of length 7. *)
Example C62_example :
  let u := mkV2 (fofZ 3) (fofZ 4) in let v := mkV2 (fofZ (-4)) (fofZ 3) in let w := mkV3 (fofZ 2) (fofZ 3) (fofZ 6) in
  i32 (-2147483648) /\ i32 5 /\ vec 0 u /\ vec 0 v /\ vec3 0 w /\
  v2_rotate_quarter u (-2147483648) = Some u /\
  match v2_rotate_quarter u 5 with Some r => v2_equals r v | None => false end = true /\
  match v2_rotate_quarter u (-1) with Some r => v2_equals r (v2_neg v) | None => false end = true /\
  feqb (v2_dot u v) f0 = true /\ v2_is_parallel u v = false /\ v2_is_parallel u (v2_mul u (fofZ 7)) = true /\
  feqb (v2_length2 u) (fofZ 25) = true /\ feqb (v3_length w) (fofZ 7) = true /\ feqb (v3_dot w w) (fofZ 49) = true /\
  hypot_accurate hypot_nearest /\ atan2_accurate atan2_nearest /\ trig_accurate (near_trig sin) sin /\ rv u <> mkP 0 0.
Proof.
  assert (forall z, (Z.abs z <= 2 ^ 24)%Z -> exists n, (Z.abs n <= 2 ^ 24)%Z /\ grid 0 (fofZ z) n) as G by (intros z Hz; exists z; split; [exact Hz|apply grid_fofZ; lia]).
  cbv zeta. split; [unfold i32; lia|]. split; [unfold i32; lia|]. split; [split; apply G; cbn; lia|]. split; [split; apply G; cbn; lia|].
  split; [intros c [->|[->| ->]]; apply G; cbn; lia|]. split; [reflexivity|]. do 8 (split; [vm_compute; reflexivity|]).
  split; [apply hypot_nearest_accurate|]. split; [apply atan2_nearest_accurate|]. split; [apply near_trig_accurate; intros; apply SIN_bound|].
  intros Q. injection Q as Q _. destruct (grid_fofZ 3 ltac:(lia)) as (_ & E). cbn [vx] in Q. rewrite E in Q. change (bp 0) with 1 in Q. lra.
Qed.
