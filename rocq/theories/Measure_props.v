(** C47, C48: ring areas and line lengths. *)
From Coq Require Import ZArith Bool List Reals Lia Lra Psatz.
From Flocq Require Import Core IEEE754.BinarySingleNaN.
From Verif Require Import Base F64 F64Facts Coordinate_model CoordArrays_model CoordSeq_model
  Orientation_spec Measure_model Measure_spec Measure_proofs.
Import ListNotations.
Open Scope Z_scope.

(** Rings the signed area is exact on: [cs] is a closed chain [zs] of integer
    points scaled by 2^e, small enough for its length. *)
Definition exact_ring (e k : Z) (zs : list (Z * Z)) (cs : list Coordinate) : Prop :=
  -536 <= e <= 485 /\ 0 <= k /\ closed_chain zs /\ on_grid e zs cs /\ within k zs /\
  Z.of_nat (length cs) * (4 * (k * k)) <= 2 ^ 53.

(** The signed area is exactly half the trapezoid sum. *)
Theorem C47_signed_area_exact e k zs cs : exact_ring e k zs cs ->
  exists r, signed_area_vec cs = Ok r /\ fis_finite r = true /\
    R_of r = (IZR (trapezoids zs) / 2 * (bp e * bp e))%R.
Proof.
  intros (He & Hk & Cl & G & W & B).
  destruct (signed_area_grid e k zs cs) as (r & Er & [Fr Rr]); try assumption; try lia.
  exists r. split; [exact Er|]. split; [exact Fr|].
  rewrite Rr, (shoe_closed _ Cl).
  replace (2 * e - 1) with (e + e + (-1)) by lia. rewrite !bpow_plus.
  change (bp (-1)) with (/ 2)%R. field.
Qed.
(** The unsigned area is its magnitude. *)
Theorem C47_area_exact e k zs cs : exact_ring e k zs cs ->
  exists r, area_vec cs = Ok r /\ fis_finite r = true /\
    R_of r = (Rabs (IZR (trapezoids zs)) / 2 * (bp e * bp e))%R.
Proof.
  intros H. destruct (C47_signed_area_exact _ _ _ _ H) as (r & Er & Fr & Rr).
  unfold area_vec. rewrite Er. cbn [bind]. eexists. split; [reflexivity|].
  split; [now rewrite fabs_fin|]. rewrite fabs_R, Rr.
  pose proof (bpow_gt_0 radix2 e). unfold Rdiv. rewrite !Rabs_mult.
  rewrite (Rabs_pos_eq (/ 2)), (Rabs_pos_eq (bp e)) by lra. reflexivity.
Qed.
Lemma on_grid_rev e zs cs : on_grid e zs cs -> on_grid e (rev zs) (rev cs).
Proof. induction 1; cbn [rev]; [constructor|]. apply Forall2_app; [assumption|]. constructor; auto. Qed.
Lemma within_rev k zs : within k zs -> within k (rev zs).
Proof. intros H. apply Forall_rev. exact H. Qed.
(** Reversing a ring negates its signed area. *)
Theorem C47_reverse e k zs cs : exact_ring e k zs cs ->
  exists r r', signed_area_vec cs = Ok r /\ signed_area_vec (rev cs) = Ok r' /\ R_of r' = (- R_of r)%R.
Proof.
  intros H. pose proof H as (He & Hk & (a & m & E) & G & W & B).
  destruct (C47_signed_area_exact _ _ _ _ H) as (r & Er & _ & Rr).
  destruct (C47_signed_area_exact e k (rev zs) (rev cs)) as (r' & Er' & _ & Rr').
  - split; [lia|]. split; [lia|]. split; [|split; [now apply on_grid_rev|split; [now apply within_rev|]]].
    + exists a, (rev m). rewrite E. cbn [rev]. rewrite rev_app_distr. reflexivity.
    + now rewrite rev_length.
  - exists r, r'. split; [exact Er|]. split; [exact Er'|].
    rewrite Rr, Rr', trapezoids_rev, opp_IZR. lra.
Qed.
(** Starting the ring at another vertex does not change its signed area. *)
Theorem C47_rotate e k za zl zb zm a l b m :
  exact_ring e k ((za :: zl) ++ (zb :: zm) ++ [za]) ((a :: l) ++ (b :: m) ++ [a]) ->
  length zl = length l ->
  exists r r', signed_area_vec ((a :: l) ++ (b :: m) ++ [a]) = Ok r /\
    signed_area_vec ((b :: m) ++ (a :: l) ++ [b]) = Ok r' /\ R_of r' = R_of r.
Proof.
  intros H Ll. pose proof H as (He & Hk & _ & G & W & B).
  destruct (C47_signed_area_exact _ _ _ _ H) as (r & Er & _ & Rr).
  destruct (C47_signed_area_exact e k ((zb :: zm) ++ (za :: zl) ++ [zb]) ((b :: m) ++ (a :: l) ++ [b])) as (r' & Er' & _ & Rr').
  - split; [lia|]. split; [lia|]. split; [|split; [|split]].
    + exists zb, (zm ++ za :: zl). cbn [app]. now rewrite <- app_assoc.
    + unfold on_grid in *. cbn [app] in G. inversion G as [|? ? ? ? Ga G1 E1 E2]. subst.
      assert (Sp : forall zl l, length zl = length l -> forall zr r0,
        Forall2 (fun z c => grid e (cx c) (fst z) /\ grid e (cy c) (snd z)) (zl ++ zr) (l ++ r0) ->
        Forall2 (fun z c => grid e (cx c) (fst z) /\ grid e (cy c) (snd z)) zl l /\
        Forall2 (fun z c => grid e (cx c) (fst z) /\ grid e (cy c) (snd z)) zr r0).
      { clear. induction zl as [|z zl IH]; intros [|c l]; cbn; intros L zr r0 F; try discriminate.
        - split; [constructor|exact F].
        - inversion F; subst. injection L as L. destruct (IH l L zr r0) as [F1 F2]; [assumption|].
          split; [constructor; assumption|assumption]. }
      destruct (Sp zl l Ll _ _ G1) as [Gl G2]. inversion G2 as [|? ? ? ? Gb G3 E1 E2]. subst.
      assert (Lm : length zm = length m).
      { pose proof (on_grid_length _ _ _ G3) as Lm. rewrite !app_length in Lm. cbn in Lm. lia. }
      destruct (Sp zm m Lm _ _ G3) as [Gm _].
      apply Forall2_app; [constructor; assumption|]. apply Forall2_app; [constructor; assumption|].
      constructor; [assumption|constructor].
    + unfold within in *. rewrite !Forall_app in *. destruct W as (W1 & W2 & _).
      split; [exact W2|]. split; [exact W1|]. inversion W2; subst. constructor; [assumption|constructor].
    + rewrite !app_length in *. cbn [length] in *. lia.
  - exists r, r'. split; [exact Er|]. split; [exact Er'|].
    rewrite Rr, Rr', trapezoids_rotate. reflexivity.
Qed.
(** A triangle: half its determinant, positive when it turns clockwise; and
    [is_ccw_area_vec] tells counterclockwise rings. *)
Theorem C47_triangle e k za zb zc a b c : exact_ring e k [za; zb; zc; za] [a; b; c; a] ->
  exists r, signed_area_vec [a; b; c; a] = Ok r /\ R_of r = (- det_pts a b c / 2)%R /\
    is_ccw_area_vec [a; b; c; a] = Ok (if Rlt_dec 0 (det_pts a b c) then true else false).
Proof.
  intros H. destruct (C47_signed_area_exact _ _ _ _ H) as (r & Er & Fr & Rr).
  exists r. split; [exact Er|].
  destruct H as (_ & _ & _ & G & _). inversion G as [|? ? ? ? [Ax Ay] G1 E1 E2]; subst.
  inversion G1 as [|? ? ? ? [Bx By_] G2 E1 E2]; subst. inversion G2 as [|? ? ? ? [Cx Cy] _ E1 E2]; subst.
  assert (Rd : R_of r = (- det_pts a b c / 2)%R).
  { rewrite Rr. unfold det_pts, det3.
    rewrite (proj2 Ax), (proj2 Ay), (proj2 Bx), (proj2 By_), (proj2 Cx), (proj2 Cy).
    destruct za as [xa ya], zb as [xb yb], zc as [xc yc]. cbn [trapezoids fst snd].
    rewrite !plus_IZR, !mult_IZR, !plus_IZR, !minus_IZR. field. }
  split; [exact Rd|]. unfold is_ccw_area_vec. rewrite Er. cbn [bind]. f_equal.
  rewrite fltb_R by (assumption || reflexivity).
  change (R_of f0) with 0%R. rewrite Rd. unfold Rlt_bool.
  destruct (Rcompare_spec (- det_pts a b c / 2) 0); destruct (Rlt_dec 0 (det_pts a b c)); try reflexivity; lra.
Qed.
(** In general the sign of the area decides [is_ccw_area_vec]. *)
Theorem C47_ccw_area e k zs cs : exact_ring e k zs cs ->
  is_ccw_area_vec cs = Ok (trapezoids zs <? 0).
Proof.
  intros H. destruct (C47_signed_area_exact _ _ _ _ H) as (r & Er & Fr & Rr).
  unfold is_ccw_area_vec. rewrite Er. cbn [bind]. f_equal.
  rewrite fltb_R by (assumption || reflexivity). change (R_of f0) with 0%R. rewrite Rr.
  pose proof (bpow_gt_0 radix2 e) as Be.
  assert (0 < bp e * bp e)%R by nra. unfold Rlt_bool.
  destruct (Z.ltb_spec (trapezoids zs) 0) as [L|L].
  - apply IZR_lt in L. destruct (Rcompare_spec (IZR (trapezoids zs) / 2 * (bp e * bp e)) 0); try reflexivity; nra.
  - apply IZR_le in L. destruct (Rcompare_spec (IZR (trapezoids zs) / 2 * (bp e * bp e)) 0); try reflexivity; nra.
Qed.
(** Fewer than three points have no area, whatever they are. *)
Theorem C47_few_points cs : (length cs < 3)%nat -> signed_area_vec cs = Ok f0 /\ area_vec cs = Ok f0.
Proof.
  intros H. unfold area_vec, signed_area_vec.
  replace (length cs <? 3)%nat with true by (symmetry; now apply Nat.ltb_lt). split; reflexivity.
Qed.
(** The vector and sequence variants agree bit for bit on every input, and
    neither ever panics. *)
Theorem C47_variants_agree s :
  signed_area_seq s = signed_area_vec (scoords s) /\ area_seq s = area_vec (scoords s) /\
  exists r, signed_area_vec (scoords s) = Ok r.
Proof.
  split; [apply signed_area_agree|]. split; [unfold area_seq, area_vec; now rewrite signed_area_agree|].
  unfold signed_area_vec. destruct (Nat.ltb_spec (length (scoords s)) 3) as [L|L]; [eauto|].
  rewrite (idx_nth _ _ coord_default) by lia. cbn [bind]. cbv zeta.
  match goal with |- exists r, bind (forN ?n ?lo ?x ?b) _ = _ =>
    destruct (forN_ind (fun _ (_ : f64) => True) b n lo x I) as (r & -> & _); [|cbn [bind]; eauto] end.
  intros i x Hi _. rewrite !(idx_nth _ _ coord_default) by lia. cbn [bind].
  unfold usub. replace (1 <=? i)%nat with true by (symmetry; apply Nat.leb_le; lia). cbn [bind].
  rewrite (idx_nth _ _ coord_default) by lia. cbn [bind]. eauto.
Qed.
Definition zsq : list (Z * Z) := [(0, 0); (0, 4); (3, 4); (3, 0); (0, 0)].
Definition ipoint (z : Z * Z) : Coordinate := new_xy (fofZ (fst z)) (fofZ (snd z)).
Example C47_example : exact_ring 0 4 zsq (map ipoint zsq) /\ trapezoids zsq = 24 /\
  trapezoids (rev zsq) = -24 /\ match signed_area_vec (map ipoint zsq) with Ok r => feqb r (fofZ 12) | Panic => false end = true.
Proof.
  split; [|split; [reflexivity|split; [reflexivity|vm_compute; reflexivity]]].
  split; [lia|]. split; [lia|]. split; [exists (0, 0), [(0, 4); (3, 4); (3, 0)]; reflexivity|].
  split; [|split; [repeat constructor; cbn; lia|cbn; lia]].
  unfold zsq, on_grid. cbn [map]. repeat constructor; cbn [fst snd ipoint new_xy cx cy]; apply grid_fofZ; lia.
Qed.
Example C47_example_triangle : exact_ring 0 4 [(0, 0); (4, 0); (0, 3); (0, 0)] (map ipoint [(0, 0); (4, 0); (0, 3); (0, 0)]).
Proof.
  split; [lia|]. split; [lia|]. split; [exists (0, 0), [(4, 0); (0, 3)]; reflexivity|].
  split; [|split; [repeat constructor; cbn; lia|cbn; lia]].
  unfold on_grid. cbn [map]. repeat constructor; cbn [fst snd ipoint new_xy cx cy]; apply grid_fofZ; lia.
Qed.

(** What is asked of [f64::hypot]: never negative. *)
Definition hypot_nonneg (hypot : f64 -> f64 -> f64) : Prop :=
  forall x y, nn (hypot x y) -> fleb f0 (hypot x y) = true.
(** What is asked of it on an axis: [hypot x 0 = |x|]. *)
Definition hypot_axis (hypot : f64 -> f64 -> f64) : Prop :=
  forall x y, fis_finite x = true -> R_of y = 0%R -> fis_finite y = true ->
    hypot x y = fabs x /\ hypot y x = fabs x.

(** Never panics; 0 for at most one point. *)
Theorem C48_short hypot s : (seq_size s <= 1)%nat -> length_of_line hypot s = Ok f0.
Proof. intros H. unfold length_of_line. apply Nat.leb_le in H. now rewrite H. Qed.
(** Never negative. *)
Theorem C48_nonneg hypot s : hypot_nonneg hypot ->
  exists r, length_of_line hypot s = Ok r /\ (nn r -> fleb f0 r = true).
Proof.
  intros H. rewrite length_seg_sum. eexists. split; [reflexivity|]. intros N.
  exact (seg_sum_mono hypot (scoords s) [] H f0 eq_refl N).
Qed.
(** Not decreased by appending points. *)
Theorem C48_append hypot d d' k k' l m : hypot_nonneg hypot ->
  exists r r', length_of_line hypot (mkSeq d k l) = Ok r /\
    length_of_line hypot (mkSeq d' k' (l ++ m)) = Ok r' /\ (nn r' -> fleb r r' = true).
Proof.
  intros H. rewrite !length_seg_sum. do 2 eexists. split; [reflexivity|]. split; [reflexivity|].
  intros N. exact (seg_sum_mono hypot m l H f0 eq_refl N).
Qed.
(** Exact on axis-parallel grid lines. *)
Theorem C48_rectilinear hypot d k e zs cs : -1074 <= e <= 970 -> hypot_axis hypot ->
  on_grid e zs cs -> rectilinear zs -> manhattan zs <= 2 ^ 53 ->
  exists r, length_of_line hypot (mkSeq d k cs) = Ok r /\ fis_finite r = true /\
    R_of r = (IZR (manhattan zs) * bp e)%R.
Proof.
  intros He Hh G Rl B. rewrite length_seg_sum. eexists. split; [reflexivity|].
  pose proof (seg_sum_grid hypot e zs cs He Hh G Rl f0 0 ltac:(lia) (grid_f0 e) ltac:(lia)) as [F R].
  split; [exact F|exact R].
Qed.
(** The sum of a step and the rest: a hypot meeting both conditions. *)
Definition l1 (x y : f64) : f64 := fadd (fabs x) (fabs y).
Example C48_example :
  hypot_nonneg l1 /\ match length_of_line l1 (mkSeq 2 0 (map ipoint zsq)) with Ok r => feqb r (fofZ 14) | Panic => false end = true /\ manhattan zsq = 14 /\ rectilinear zsq.
Proof.
  split; [|split; [vm_compute; reflexivity|split; [reflexivity|]]].
  - intros x y N. apply acc_step2; [|intros _|exact N].
    + unfold l1 in N. destruct x as [s|s| |s m e H]; try reflexivity; destruct y; easy.
    + unfold l1 in N. destruct y as [s|s| |s m e H]; try reflexivity; destruct x; easy.
  - intros a [xa ya] [xb yb] m E. unfold zsq in E.
    repeat (destruct a as [|? a]; [first [discriminate E|injection E as <- <- <- <- _; cbn; lia]|injection E as _ E]).
    destruct a; discriminate E.
Qed.
Example C48_example_axis : hypot_axis l1.
Proof.
  assert (Z0 : forall y, fis_finite y = true -> R_of y = 0%R -> fabs y = B754_zero false).
  { intros [s|s| |s m e H] F R; try easy. exfalso. unfold R_of in R. cbn [B2R] in R.
    apply eq_0_F2R in R. cbn in R. destruct s; discriminate R. }
  intros x y Fx Ry Fy. unfold l1. rewrite (Z0 y Fy Ry).
  destruct x as [s|s| |s m e H]; try easy; split; reflexivity.
Qed.
