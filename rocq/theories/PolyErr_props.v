(** C68, C77: areas and lengths of polygons at arbitrary doubles. *)
From Coq Require Import ZArith Bool List Reals Lia Lra Psatz.
From Flocq Require Import Core IEEE754.BinarySingleNaN.
From Verif Require Import Base F64 F64Facts F64Err Coordinate_model CoordArrays_model CoordSeq_model Distance_float Distance_props
  Measure_model Measure_spec Measure_proofs Measure_props MeasureErr_spec MeasureErr_proofs MeasureErr_props
  Geom_model Geom_proofs Line_props Polygon_proofs Polygon_props.
Import ListNotations.
Local Open Scope R_scope.

(** ** A running sum of inexact terms *)
Definition rsum {A} (f : A -> R) (l : list A) : R := fold_right (fun h s => f h + s) 0 l.
Lemma rsum_nonneg {A} (f : A -> R) l : (forall a, In a l -> 0 <= f a) -> 0 <= rsum f l.
Proof.
  induction l as [|a l IH]; intros H; cbn; [lra|]. pose proof (H a (or_introl eq_refl)).
  fold (rsum f l). specialize (IH (fun b Hb => H b (or_intror Hb))). lra.
Qed.
Lemma rsum_le {A} (f g : A -> R) l : (forall a, In a l -> f a <= g a) -> rsum f l <= rsum g l.
Proof.
  induction l as [|a l IH]; intros H; cbn; [lra|]. pose proof (H a (or_introl eq_refl)).
  fold (rsum f l) (rsum g l). specialize (IH (fun b Hb => H b (or_intror Hb))). lra.
Qed.
Lemma rsum_scale {A} (f : A -> R) c l : rsum (fun a => c * f a) l = c * rsum f l.
Proof. induction l as [|a l IH]; cbn; [ring|]. fold (rsum f l). fold (rsum (fun a => c * f a) l). rewrite IH. ring. Qed.
Lemma rsum_abs {A} (f : A -> R) l : Rabs (rsum f l) <= rsum (fun a => Rabs (f a)) l.
Proof.
  induction l as [|a l IH]; cbn; [rewrite Rabs_R0; lra|]. fold (rsum f l) (rsum (fun a => Rabs (f a)) l).
  eapply Rle_trans; [apply Rabs_triang|]. lra.
Qed.

(** One rounded addition or subtraction. *)
Definition rounds (s : R) (op : f64 -> f64 -> f64) : Prop := Rabs s = 1 /\
  forall a t, fis_finite a = true -> fis_finite t = true -> Rabs (R_of a + s * R_of t) <= bp 1022 ->
    fis_finite (op a t) = true /\ Rabs (R_of (op a t) - (R_of a + s * R_of t)) <= bp (-53) * Rabs (R_of a + s * R_of t).
Lemma rounds_add : rounds 1 fadd.
Proof.
  split; [apply Rabs_R1|]. intros a t Fa Ft. rewrite Rmult_1_l. intros B.
  destruct (fadd_R a t Fa Ft) as (F & E).
  { apply Rle_lt_trans with (bp 1022); [apply RN_abs_le; [lia|exact B]|apply bpow_lt; lia]. }
  split; [exact F|]. rewrite E. apply RN_sum_err; apply generic_format_B2R.
Qed.
Lemma rounds_sub : rounds (-1) fsub.
Proof.
  split; [rewrite Rabs_left; lra|]. intros a t Fa Ft. replace (R_of a + -1 * R_of t) with (R_of a - R_of t) by ring. intros B.
  destruct (fsub_R a t Fa Ft) as (F & E).
  { apply Rle_lt_trans with (bp 1022); [apply RN_abs_le; [lia|exact B]|apply bpow_lt; lia]. }
  split; [exact F|]. rewrite E. apply RN_sub_err; apply generic_format_B2R.
Qed.

Lemma run_step s op k acc X E M t x e : rounds s op -> fis_finite acc = true -> fis_finite t = true ->
  0 <= k -> k * bp (-52) <= 1 -> 0 <= E -> Rabs X <= M -> Rabs (R_of acc - X) <= (1 + k * bp (-52)) * E + k * bp (-52) * M ->
  Rabs (R_of t - x) <= e -> 2 * (E + e + (M + Rabs x)) <= bp 1022 ->
  fis_finite (op acc t) = true /\ Rabs (X + s * x) <= M + Rabs x /\
  Rabs (R_of (op acc t) - (X + s * x)) <= (1 + (k + 1) * bp (-52)) * (E + e) + (k + 1) * bp (-52) * (M + Rabs x).
Proof.
  intros (S1 & RO) Fa Ft K0 K1 E0 XM A T B.
  pose proof (bpow_gt_0 radix2 (-52)) as P. assert (bp (-52) = 2 * bp (-53)) as P2 by exact (bpow_plus radix2 1 (-53)).
  pose proof (Rabs_pos (R_of t - x)) as e0. pose proof (Rabs_pos X) as M0. pose proof (Rabs_pos x) as x0.
  set (d := k * bp (-52)) in *.
  assert (0 <= d) as D0 by (apply Rmult_le_pos; lra).
  set (c := R_of acc + s * R_of t) in *.
  assert (Rabs (s * x) = Rabs x) as Sx by (rewrite Rabs_mult, S1; ring).
  assert (Rabs (X + s * x) <= M + Rabs x) as XX by (eapply Rle_trans; [apply Rabs_triang|]; lra).
  assert (Rabs (c - (X + s * x)) <= (1 + d) * E + d * M + e) as C1.
  { replace (c - (X + s * x)) with ((R_of acc - X) + s * (R_of t - x)) by (unfold c; ring).
    eapply Rle_trans; [apply Rabs_triang|]. rewrite Rabs_mult, S1. lra. }
  assert (Rabs c <= (1 + d) * (E + e + (M + Rabs x))) as C2.
  { replace c with ((c - (X + s * x)) + (X + s * x)) by ring. eapply Rle_trans; [apply Rabs_triang|].
    assert (0 <= d * e) by (apply Rmult_le_pos; lra). assert (0 <= d * Rabs x) by (apply Rmult_le_pos; lra). lra. }
  assert ((1 + d) * (E + e + (M + Rabs x)) <= 2 * (E + e + (M + Rabs x))) as C3 by (apply Rmult_le_compat_r; lra).
  destruct (RO acc t Fa Ft) as (F & R1); [fold c; lra|]. fold c in R1.
  split; [exact F|]. split; [exact XX|].
  replace (R_of (op acc t) - (X + s * x)) with ((R_of (op acc t) - c) + (c - (X + s * x))) by ring.
  eapply Rle_trans; [apply Rabs_triang|].
  assert (bp (-53) * Rabs c <= bp (-53) * (2 * (E + e + (M + Rabs x)))) as C4 by (apply Rmult_le_compat_l; [apply bpow_ge_0|lra]).
  assert (0 <= d * e) by (apply Rmult_le_pos; lra). assert (0 <= d * Rabs x) by (apply Rmult_le_pos; lra).
  replace ((k + 1) * bp (-52)) with (d + bp (-52)) by (unfold d; ring). rewrite P2 in *. lra.
Qed.

Lemma run_sum {A} s op (x e : A -> R) (body : nat -> f64 -> res f64) : rounds s op -> forall hs lo k acc X E M,
  (forall i h, nth_error hs i = Some h -> exists t, fis_finite t = true /\ Rabs (R_of t - x h) <= e h /\ forall a, body (lo + i)%nat a = Ok (op a t)) ->
  fis_finite acc = true -> (0 <= k) -> (k + INR (length hs)) * bp (-52) <= 1 -> 0 <= E -> Rabs X <= M ->
  Rabs (R_of acc - X) <= (1 + k * bp (-52)) * E + k * bp (-52) * M ->
  2 * (E + rsum e hs + (M + rsum (fun h => Rabs (x h)) hs)) <= bp 1022 ->
  exists r, forN (length hs) lo acc body = Ok r /\ fis_finite r = true /\
    Rabs (R_of r - (X + s * rsum x hs)) <= (1 + (k + INR (length hs)) * bp (-52)) * (E + rsum e hs) + (k + INR (length hs)) * bp (-52) * (M + rsum (fun h => Rabs (x h)) hs).
Proof.
  intros RO. induction hs as [|h hs IH]; intros lo k acc X E M H Fa K0 K1 E0 XM A0 B.
  - exists acc. split; [reflexivity|]. split; [exact Fa|]. cbn. now rewrite Rmult_0_r, !Rplus_0_r.
  - destruct (H 0%nat h eq_refl) as (t & Ft & Et & Eb). rewrite Nat.add_0_r in Eb.
    change (length (h :: hs)) with (S (length hs)) in *. rewrite S_INR in *. pose proof (pos_INR (length hs)) as LP.
    pose proof (bpow_gt_0 radix2 (-52)) as P.
    assert (0 <= rsum e hs) as ES.
    { apply rsum_nonneg. intros a Ha. apply In_nth_error in Ha as (i & Hi). destruct (H (S i) a Hi) as (t' & _ & Et' & _).
      pose proof (Rabs_pos (R_of t' - x a)). lra. }
    assert (0 <= rsum (fun h => Rabs (x h)) hs) as XS by (apply rsum_nonneg; intros; apply Rabs_pos).
    cbn [rsum fold_right] in B. fold (rsum e hs) (rsum (fun h => Rabs (x h)) hs) in B.
    assert (k * bp (-52) <= 1) as K2.
    { apply Rle_trans with ((k + (INR (length hs) + 1)) * bp (-52)); [apply Rmult_le_compat_r; lra|exact K1]. }
    destruct (run_step s op k acc X E M t (x h) (e h) RO Fa Ft K0 K2 E0 XM A0 Et) as (F1 & X1 & A1); [lra|].
    pose proof (Rabs_pos (R_of t - x h)) as e0.
    destruct (IH (S lo) (k + 1) (op acc t) (X + s * x h) (E + e h) (M + Rabs (x h))) as (r & Er & Fr & Br).
    + intros i g Hg. destruct (H (S i) g Hg) as (t' & Ft' & Et' & Eb'). exists t'. split; [exact Ft'|]. split; [exact Et'|].
      intros a. replace (S lo + i)%nat with (lo + S i)%nat by lia. apply Eb'.
    + exact F1.
    + lra.
    + replace (k + 1 + INR (length hs)) with (k + (INR (length hs) + 1)) by ring. exact K1.
    + lra.
    + exact X1.
    + exact A1.
    + lra.
    + exists r. split; [cbn [forN]; rewrite Eb; cbn [bind]; exact Er|]. split; [exact Fr|].
      cbn [rsum fold_right]. fold (rsum e hs) (rsum x hs) (rsum (fun h => Rabs (x h)) hs).
      replace (X + s * (x h + rsum x hs)) with (X + s * x h + s * rsum x hs) by ring.
      replace (k + (INR (length hs) + 1)) with (k + 1 + INR (length hs)) by ring.
      eapply Rle_trans; [exact Br|]. lra.
Qed.

(** ** C68: areas *)
(** The area enclosed by a ring. *)
Definition rarea (cs : list Coordinate) : R := Rabs (rtrapezoids (map plane cs) / 2).
(** A closed ring of ordinates up to 2^450 in a box [w] wide and [h] high. *)
Definition boxed_ring (w h : R) (cs : list Coordinate) : Prop :=
  closed_chain cs /\ Forall (pt_below 450) cs /\ in_box w h (map plane cs).

Lemma rshoe_ashoe x0 l : Rabs (rshoe x0 l) <= ashoe x0 l.
Proof.
  induction l as [|a l IH]; [cbn; rewrite Rabs_R0; lra|]. destruct l as [|b l]; [cbn; rewrite Rabs_R0; lra|].
  destruct l as [|c l]; [cbn; rewrite Rabs_R0; lra|].
  change (rshoe x0 (a :: b :: c :: l)) with ((fst b - x0) * (snd a - snd c) + rshoe x0 (b :: c :: l)).
  change (ashoe x0 (a :: b :: c :: l)) with (Rabs ((fst b - x0) * (snd a - snd c)) + ashoe x0 (b :: c :: l)).
  eapply Rle_trans; [apply Rabs_triang|]. lra.
Qed.
Lemma rarea_box w h cs : boxed_ring w h cs -> 0 <= w * h /\ rarea cs <= INR (length cs) * (w * h).
Proof.
  intros (Cl & _ & Bx). assert (map plane cs <> []) as Ne by (destruct Cl as (a & m & ->); discriminate).
  pose proof (ashoe_box w h _ Bx Ne) as Ab. rewrite map_length in Ab.
  assert (0 <= w * h) as WH.
  { destruct Bx as (x & y & F). destruct (map plane cs) as [|p l]; [easy|]. inversion F as [|? ? H _]; subst. apply Rmult_le_pos; lra. }
  split; [exact WH|]. unfold rarea. rewrite <- (rshoe_closed (map plane cs)).
  2: { destruct Cl as (a & m & ->). exists (plane a), (map plane m). cbn [map]. now rewrite map_app. }
  pose proof (rshoe_ashoe (fst (hd (0, 0) (map plane cs))) (map plane cs)) as Ra. unfold Rdiv. rewrite Rabs_mult, (Rabs_pos_eq (/ 2)) by lra.
  pose proof (Rabs_pos (rshoe (fst (hd (0, 0) (map plane cs))) (map plane cs))). lra.
Qed.
Lemma area_near' w h cs : boxed_ring w h cs -> (Z.of_nat (length cs) <= 2 ^ 50)%Z ->
  exists r, area_vec cs = Ok r /\ fis_finite r = true /\ Rabs (R_of r - rarea cs) <= area_error (length cs) w h.
Proof.
  intros (Cl & Fc & Bx) N. destruct (C47_error w h cs Cl) as (r & Er & Fr & Rr); [|exact Bx|exact N|].
  { eapply Forall_impl; [|exact Fc]. intros c ((F1 & B1) & F2 & B2). split; (split; [assumption|]); (eapply Rle_trans; [eassumption|apply bpow_le; lia]). }
  exists (fabs r). unfold area_vec. rewrite Er. split; [reflexivity|]. rewrite fabs_R. split; [now rewrite fabs_fin|].
  unfold rarea. eapply Rle_trans; [apply Rabs_triang_inv2|exact Rr].
Qed.
Lemma points_bound {A} (f : A -> list Coordinate) (g : A -> R) c l : 0 <= c -> (forall a, In a l -> g a <= INR (length (f a)) * c) ->
  rsum g l <= INR (length (concat (map f l))) * c.
Proof.
  intros C H. induction l as [|a l IH]; cbn; [lra|]. rewrite app_length, plus_INR. fold (rsum g l).
  pose proof (H a (or_introl eq_refl)). specialize (IH (fun b Hb => H b (or_intror Hb))). lra.
Qed.
Lemma in_concat_length {A B} (f : A -> list B) l a : In a l -> (length (f a) <= length (concat (map f l)))%nat.
Proof. induction l as [|b l IH]; intros []; cbn; rewrite app_length; [subst; lia|]. specialize (IH H). lia. Qed.
Lemma INR_50 n : (Z.of_nat n <= 2 ^ 50)%Z -> INR n <= bp 50.
Proof. intros H. rewrite INR_IZR_INZ. change (bp 50) with (IZR (2 ^ 50)). now apply IZR_le. Qed.
Lemma area_error_bound n w h : 0 <= w * h -> (Z.of_nat n <= 2 ^ 50)%Z -> 0 <= area_error n w h <= INR n * (w * h + 1).
Proof.
  intros WH N. pose proof (INR_50 n N) as Ln. pose proof (pos_INR n) as P. unfold area_error.
  assert (bp (-1075) <= 1) as S1 by (change 1 with (bp 0); apply bpow_le; lia). pose proof (bpow_gt_0 radix2 (-1075)) as S0.
  pose proof (bpow_gt_0 radix2 (-53)) as U0.
  assert ((INR n + 1) * bp (-53) <= 1) as Q.
  { apply Rle_trans with (bp 51 * bp (-53)); [apply Rmult_le_compat_r; [lra|]|rewrite <- bpow_plus; change 1 with (bp 0); apply bpow_le; lia].
    change 51%Z with (50 + 1)%Z. rewrite bp_S. assert (1 <= bp 50) by (change 1 with (bp 0); apply bpow_le; lia). lra. }
  assert (0 <= (INR n + 1) * bp (-53)) as Q0 by (apply Rmult_le_pos; lra).
  replace (INR n * (INR n + 1) * bp (-53) * (w * h)) with (INR n * (w * h) * ((INR n + 1) * bp (-53))) by ring.
  assert (0 <= INR n * (w * h)) as Q1 by (apply Rmult_le_pos; assumption).
  split.
  - assert (0 <= INR n * (w * h) * ((INR n + 1) * bp (-53))) by (apply Rmult_le_pos; assumption).
    assert (0 <= INR n * bp (-1075)) by (apply Rmult_le_pos; lra). lra.
  - assert (INR n * (w * h) * ((INR n + 1) * bp (-53)) <= INR n * (w * h) * 1) by (apply Rmult_le_compat_l; assumption).
    assert (INR n * bp (-1075) <= INR n * 1) by (apply Rmult_le_compat_l; assumption). lra.
Qed.
Lemma fadd_f0 a : fis_finite a = true -> fis_finite (fadd f0 a) = true /\ R_of (fadd f0 a) = R_of a.
Proof.
  intros F. destruct (fadd_R f0 a eq_refl F) as (G & E).
  { change (R_of f0) with 0. rewrite Rplus_0_l, RN_id by apply generic_format_B2R. exact (abs_B2R_lt_emax 53 1024 a). }
  split; [exact G|]. rewrite E. change (R_of f0) with 0. rewrite Rplus_0_l. apply RN_id, generic_format_B2R.
Qed.

(** The area of a polygon whose rings lie in a box [w] wide and [h] high: the
    area of the shell less the areas of the holes, up to twice the errors of
    the rings and one rounding of the total for each hole. *)
Definition polygon_area (p : GPoly) : R := rarea (spts p) - rsum rarea (hpts p).
Definition polygon_error (w h : R) (p : GPoly) : R :=
  2 * rsum (fun cs => area_error (length cs) w h) (spts p :: hpts p) + INR (length (hpts p)) * bp (-52) * rsum rarea (spts p :: hpts p).
Theorem C68_area_error : forall w h p, Forall (boxed_ring w h) (spts p :: hpts p) -> w * h <= bp 902 ->
  (Z.of_nat (length (concat (spts p :: hpts p))) <= 2 ^ 50)%Z ->
  exists r, pg_area p = Ok r /\ fis_finite r = true /\ Rabs (R_of r - polygon_area p) <= polygon_error w h p.
Proof.
  intros w h p FB WH N. inversion FB as [|? ? B0 FH]; subst. destruct (rarea_box w h _ B0) as (WH0 & A0).
  cbn [concat] in N. rewrite app_length in N.
  assert (forall cs, In cs (hpts p) -> (length cs <= length (concat (hpts p)))%nat) as LC.
  { intros cs I. rewrite <- (map_id (hpts p)) at 1. exact (in_concat_length (fun x => x) _ cs I). }
  destruct (area_near' w h (spts p) B0 ltac:(lia)) as (a & Ea & Fa & Ra).
  unfold pg_area. rewrite rg_sequence_id. cbn [bind]. destruct (C47_variants_agree (rg_seq (pg_shell p))) as (_ & -> & _).
  fold (rpts (pg_shell p)). fold (spts p). rewrite Ea. cbn [bind]. destruct (fadd_f0 a Fa) as (F0 & R0).
  match goal with |- context [forN (length (pg_holes p)) 0 _ ?b] => set (body := b) end.
  pose proof (bpow_gt_0 radix2 (-52)) as P52.
  assert (INR (length (hpts p)) * bp (-52) <= 1 /\ (length (hpts p) <= length (concat (hpts p)))%nat) as (K1 & _).
  { assert (length (hpts p) <= length (concat (hpts p)))%nat as Lh.
    { clear - FH. induction (hpts p) as [|c l IH]; [cbn; lia|]. inversion FH as [|? ? (Cl & _) FH']; subst. cbn. rewrite app_length.
      specialize (IH FH'). destruct Cl as (x & m & ->). cbn. lia. }
    split; [|exact Lh]. apply Rle_trans with (bp 50 * bp (-52)).
    - apply Rmult_le_compat_r; [lra|]. apply INR_50. lia.
    - rewrite <- bpow_plus. change 1 with (bp 0). apply bpow_le. lia. }
  assert (RAbs : rsum (fun cs => Rabs (rarea cs)) (hpts p) = rsum rarea (hpts p)).
  { clear. unfold rsum. induction (hpts p) as [|c l IH]; [reflexivity|]. cbn [fold_right]. rewrite IH. f_equal. apply Rabs_pos_eq, Rabs_pos. }
  destruct (run_sum (-1) fsub rarea (fun cs => area_error (length cs) w h) body rounds_sub (hpts p) 0 0 (fadd f0 a)
    (rarea (spts p)) (area_error (length (spts p)) w h) (rarea (spts p))) as (r & Er & Fr & Rr).
  - intros i cs H. unfold hpts in H. rewrite nth_error_map in H. destruct (nth_error (pg_holes p) i) as [g|] eqn:Hg; [|discriminate].
    injection H as <-. assert (In (rpts g) (hpts p)) as Ig by (apply in_map, (nth_error_In _ _ Hg)).
    destruct (area_near' w h (rpts g)) as (t & Et & Ft & Rt).
    { rewrite Forall_forall in FH. now apply FH. } { specialize (LC _ Ig). lia. }
    exists t. split; [exact Ft|]. split; [exact Rt|]. intros acc. unfold body. cbn [Nat.add]. unfold idx. rewrite Hg. cbn [bind].
    rewrite rg_sequence_id. cbn [bind]. destruct (C47_variants_agree (rg_seq g)) as (_ & -> & _). fold (rpts g). rewrite Et. reflexivity.
  - exact F0.
  - lra.
  - rewrite Rplus_0_l. exact K1.
  - apply area_error_bound; [exact WH0|lia].
  - unfold rarea. rewrite Rabs_Rabsolu. lra.
  - rewrite R0. lra.
  - rewrite RAbs.
    assert (rsum (fun cs => area_error (length cs) w h) (hpts p) <= INR (length (concat (map (fun x => x) (hpts p)))) * (w * h + 1)) as Q1.
    { apply points_bound; [lra|]. intros cs I. apply area_error_bound; [exact WH0|]. specialize (LC _ I). lia. }
    assert (rsum rarea (hpts p) <= INR (length (concat (map (fun x => x) (hpts p)))) * (w * h)) as Q2.
    { apply points_bound; [lra|]. intros cs I. apply rarea_box. rewrite Forall_forall in FH. now apply FH. }
    rewrite map_id in Q1, Q2. destruct (area_error_bound (length (spts p)) w h WH0 ltac:(lia)) as (_ & Q3).
    set (n := INR (length (spts p))) in *. set (m := INR (length (concat (hpts p)))) in *.
    assert (n + m <= bp 50) as NM by (unfold n, m; rewrite <- plus_INR; apply INR_50; lia).
    assert (0 <= n + m) as NM0 by (unfold n, m; rewrite <- plus_INR; apply pos_INR).
    assert ((n + m) * (2 * (w * h) + 1) <= bp 50 * bp 904) as Q4.
    { apply Rmult_le_compat; [exact NM0|lra|exact NM|]. change 904%Z with (902 + 1 + 1)%Z. rewrite !bp_S.
      assert (1 <= bp 902) by (change 1 with (bp 0); apply bpow_le; lia). lra. }
    rewrite <- bpow_plus in Q4. assert (2 * bp (50 + 904) <= bp 1022) as Q5.
    { change 2 with (bp 1). rewrite <- bpow_plus. apply bpow_le. lia. }
    replace ((n + m) * (2 * (w * h) + 1)) with ((n * (w * h + 1) + m * (w * h + 1)) + (n * (w * h) + m * (w * h))) in Q4 by ring.
    clear - Q1 Q2 Q3 Q4 Q5 A0. fold n in A0. lra.
  - unfold hpts at 1 in Er. rewrite map_length in Er. exists r. split; [exact Er|]. split; [exact Fr|].
    unfold polygon_area, polygon_error. rewrite RAbs in Rr. cbn [rsum fold_right].
    fold (rsum rarea (hpts p)) (rsum (fun cs => area_error (length cs) w h) (hpts p)).
    replace (rarea (spts p) - rsum rarea (hpts p)) with (rarea (spts p) + -1 * rsum rarea (hpts p)) by ring.
    eapply Rle_trans; [exact Rr|]. rewrite Rplus_0_l.
    assert (0 <= area_error (length (spts p)) w h + rsum (fun cs => area_error (length cs) w h) (hpts p)) as Z.
    { destruct (area_error_bound (length (spts p)) w h WH0 ltac:(lia)) as (Z1 & _).
      assert (0 <= rsum (fun cs => area_error (length cs) w h) (hpts p)).
      { apply rsum_nonneg. intros cs I. apply area_error_bound; [exact WH0|]. specialize (LC _ I). lia. } lra. }
    apply Rplus_le_compat_r. apply Rmult_le_compat_r; [exact Z|lra].
Qed.

(** ** C68: lengths *)
(** The boundary of a polygon: all rings together, with a relative error of
    2^-52 for each hole and two for each point. *)
Definition ring_length (cs : list Coordinate) : R := path_length (map plane cs).
Definition long_ring (cs : list Coordinate) : Prop := Forall (pt_below 900) cs /\ steps_above (-900) (map plane cs).
Lemma ring_length_bound hypot cs : hypot_accurate hypot -> long_ring cs -> ring_length cs <= INR (length cs) * bp 902.
Proof.
  intros Hh (Fl & St). unfold ring_length. induction cs as [|a cs IH]; [cbn; lra|].
  pose proof (bpow_gt_0 radix2 902) as P. inversion Fl as [|? ? Fa Fl']; subst.
  change (length (a :: cs)) with (S (length cs)). rewrite S_INR. pose proof (pos_INR (length cs)) as Q.
  destruct cs as [|b cs]; [cbn; nra|]. inversion Fl' as [|? ? Fb _]; subst.
  change (path_length (map plane (a :: b :: cs))) with (euclid (plane a) (plane b) + path_length (map plane (b :: cs))).
  pose proof (steps_above_tl _ _ _ St) as St'. specialize (IH Fl' St').
  destruct (step_near hypot a b Hh Fa Fb (St [] _ _ _ eq_refl)) as (_ & _ & _ & B). lra.
Qed.
(** The length of one line or ring. *)
Theorem C67_length_error : forall hypot cs, hypot_accurate hypot -> long_ring cs -> (Z.of_nat (length cs) <= 2 ^ 50)%Z ->
  (forall l, lpts l = cs -> exists r, ln_length hypot l = Ok r /\ fis_finite r = true /\
    Rabs (R_of r - ring_length cs) <= (INR (length cs) + 2) * bp (-52) * ring_length cs) /\
  (forall g, rpts g = cs -> exists r, rg_length hypot g = Ok r /\ fis_finite r = true /\
    Rabs (R_of r - ring_length cs) <= (INR (length cs) + 2) * bp (-52) * ring_length cs).
Proof.
  intros hypot cs Hh (F1 & F2) L. split; intros l <-; exact (C48_error hypot _ Hh F1 F2 L).
Qed.
Theorem C68_length_error : forall hypot p, hypot_accurate hypot -> Forall long_ring (spts p :: hpts p) ->
  let n := (length (concat (spts p :: hpts p)) + length (hpts p))%nat in (Z.of_nat n <= 2 ^ 50)%Z ->
  exists r, pg_length hypot p = Ok r /\ fis_finite r = true /\
    Rabs (R_of r - rsum ring_length (spts p :: hpts p)) <= (2 * INR n + 4) * bp (-52) * rsum ring_length (spts p :: hpts p).
Proof.
  intros hypot p Hh FB n N. inversion FB as [|? ? B0 FH]; subst. unfold n in *. clear n.
  cbn [concat] in *. rewrite app_length in *.
  assert (forall cs, In cs (hpts p) -> (length cs <= length (concat (hpts p)))%nat) as LC.
  { intros cs I. rewrite <- (map_id (hpts p)) at 1. exact (in_concat_length (fun x => x) _ cs I). }
  pose proof (bpow_gt_0 radix2 (-52)) as P52.
  assert (forall s, long_ring (scoords s) -> (Z.of_nat (length (scoords s)) <= 2 ^ 50)%Z -> exists r, length_of_line hypot s = Ok r /\ fis_finite r = true /\
    Rabs (R_of r - ring_length (scoords s)) <= (INR (length (scoords s)) + 2) * bp (-52) * ring_length (scoords s)) as LE.
  { intros s (F1 & F2) L. exact (C48_error hypot s Hh F1 F2 L). }
  assert (forall cs, 0 <= ring_length cs) as L0 by (intros; apply path_length_nonneg).
  assert (RAbs : rsum (fun cs => Rabs (ring_length cs)) (hpts p) = rsum ring_length (hpts p)).
  { clear - L0. unfold rsum. induction (hpts p) as [|c l IH]; [reflexivity|]. cbn [fold_right]. rewrite IH. f_equal. apply Rabs_pos_eq, L0. }
  destruct (LE (rg_seq (pg_shell p)) B0) as (a & Ea & Fa & Ra). { fold (rpts (pg_shell p)). fold (spts p). lia. }
  fold (rpts (pg_shell p)) in Ra. fold (spts p) in Ra.
  unfold pg_length, rg_length at 1. rewrite Ea. cbn [bind]. destruct (fadd_f0 a Fa) as (F0 & R0).
  match goal with |- context [forN (length (pg_holes p)) 0 _ ?b] => set (body := b) end.
  set (N' := INR (length (spts p) + length (concat (hpts p)) + length (hpts p))).
  pose proof (INR_50 _ N) as N50. fold N' in N50.
  set (er := fun cs : list Coordinate => (INR (length cs) + 2) * bp (-52) * ring_length cs).
  assert (forall cs, 0 <= er cs) as er0.
  { intros cs. unfold er. apply Rmult_le_pos; [|apply L0]. pose proof (pos_INR (length cs)). apply Rmult_le_pos; lra. }
  assert (forall cs, (length cs <= length (spts p) + length (concat (hpts p)))%nat -> er cs <= (N' + 2 - INR (length (hpts p))) * bp (-52) * ring_length cs) as erN.
  { intros cs L. unfold er. apply Rmult_le_compat_r; [apply L0|]. apply Rmult_le_compat_r; [lra|]. unfold N'. rewrite plus_INR.
    apply le_INR in L. lra. }
  assert (rsum er (hpts p) <= (N' + 2 - INR (length (hpts p))) * bp (-52) * rsum ring_length (hpts p)) as ES.
  { rewrite <- rsum_scale. apply rsum_le. intros cs I. apply erN. specialize (LC _ I). lia. }
  pose proof (erN (spts p) ltac:(lia)) as ES0.
  pose proof (pos_INR (length (hpts p))) as H0.
  assert (INR (length (hpts p)) <= N') as HN by (unfold N'; rewrite plus_INR; pose proof (pos_INR (length (spts p) + length (concat (hpts p)))); lra).
  assert (bp 50 * bp (-52) = / 4) as Q50 by (rewrite <- bpow_plus; cbn; lra).
  assert (INR (length (hpts p)) * bp (-52) <= / 4) as K1.
  { rewrite <- Q50. apply Rmult_le_compat_r; lra. }
  assert ((N' + 2 - INR (length (hpts p))) * bp (-52) <= 1) as K3.
  { apply Rle_trans with ((bp 50 + 2) * bp (-52)); [apply Rmult_le_compat_r; lra|]. rewrite Rmult_plus_distr_r, Q50.
    assert (bp (-52) <= / 4) by (change (/ 4) with (bp (-2)); apply bpow_le; lia). lra. }
  assert (0 <= rsum ring_length (hpts p)) as LH0 by (apply rsum_nonneg; intros; apply L0).
  pose proof (L0 (spts p)) as LS0.
  destruct (run_sum 1 fadd ring_length er body rounds_add (hpts p) 0 0 (fadd f0 a)
    (ring_length (spts p)) (er (spts p)) (ring_length (spts p))) as (r & Er & Fr & Rr).
  - intros i cs H. unfold hpts in H. rewrite nth_error_map in H. destruct (nth_error (pg_holes p) i) as [g|] eqn:Hg; [|discriminate].
    injection H as <-. assert (In (rpts g) (hpts p)) as Ig by (apply in_map, (nth_error_In _ _ Hg)).
    destruct (LE (rg_seq g)) as (t & Et & Ft & Rt).
    { rewrite Forall_forall in FH. now apply FH. } { specialize (LC _ Ig). unfold rpts in LC. lia. }
    exists t. split; [exact Ft|]. split; [exact Rt|]. intros acc. unfold body. cbn [Nat.add]. unfold idx. rewrite Hg. cbn [bind].
    unfold rg_length. rewrite Et. reflexivity.
  - exact F0.
  - lra.
  - lra.
  - apply er0.
  - rewrite Rabs_pos_eq by apply L0. lra.
  - rewrite R0. unfold er. lra.
  - rewrite RAbs.
    assert (rsum ring_length (hpts p) <= INR (length (concat (map (fun x => x) (hpts p)))) * bp 902) as Q2.
    { apply points_bound; [apply bpow_ge_0|]. intros cs I. apply (ring_length_bound hypot); [exact Hh|]. rewrite Forall_forall in FH. now apply FH. }
    rewrite map_id in Q2. pose proof (ring_length_bound hypot _ Hh B0) as Q1.
    assert ((N' + 2 - INR (length (hpts p))) * bp (-52) * rsum ring_length (hpts p) <= 1 * rsum ring_length (hpts p)) by (apply Rmult_le_compat_r; lra).
    assert ((N' + 2 - INR (length (hpts p))) * bp (-52) * ring_length (spts p) <= 1 * ring_length (spts p)) by (apply Rmult_le_compat_r; lra).
    assert ((INR (length (spts p)) + INR (length (concat (hpts p)))) * bp 902 <= bp 50 * bp 902) as Q4.
    { apply Rmult_le_compat_r; [apply bpow_ge_0|]. unfold N' in N50. rewrite !plus_INR in N50. lra. }
    rewrite <- bpow_plus in Q4. assert (4 * bp (50 + 902) <= bp 1022) as Q5.
    { change 4 with (bp 2). rewrite <- bpow_plus. apply bpow_le. lia. }
    lra.
  - unfold hpts at 1 in Er. rewrite map_length in Er. exists r. split; [exact Er|]. split; [exact Fr|].
    rewrite RAbs in Rr. cbn [rsum fold_right]. fold (rsum ring_length (hpts p)).
    rewrite Rmult_1_l in Rr. eapply Rle_trans; [exact Rr|]. rewrite Rplus_0_l.
    set (T := ring_length (spts p) + rsum ring_length (hpts p)) in *.
    assert (er (spts p) + rsum er (hpts p) <= (N' + 2 - INR (length (hpts p))) * bp (-52) * T) as ET by (unfold T; lra).
    assert (0 <= T) as T0 by (unfold T; lra).
    assert (0 <= er (spts p) + rsum er (hpts p)) as E0 by (pose proof (er0 (spts p)); assert (0 <= rsum er (hpts p)) by (apply rsum_nonneg; intros; apply er0); lra).
    assert ((1 + INR (length (hpts p)) * bp (-52)) * (er (spts p) + rsum er (hpts p)) <= 2 * ((N' + 2 - INR (length (hpts p))) * bp (-52) * T)) as E2.
    { assert (0 <= INR (length (hpts p)) * bp (-52)) by (apply Rmult_le_pos; lra). apply Rmult_le_compat; lra. }
    assert (0 <= INR (length (hpts p)) * bp (-52) * T) by (apply Rmult_le_pos; [apply Rmult_le_pos; lra|exact T0]). lra.
Qed.

(** ** C77: the area of several polygons *)
(** The areas added up: twice the errors of the polygons and one rounding of
    the sum of their sizes for each. *)
Definition all_rings (ps : list GPoly) : list (list Coordinate) := concat (map (fun p => spts p :: hpts p) ps).
Lemma rarea_pos cs : 0 <= rarea cs.
Proof. apply Rabs_pos. Qed.
Lemma polygon_area_bound w h p : Forall (boxed_ring w h) (spts p :: hpts p) ->
  0 <= w * h /\ Rabs (polygon_area p) <= INR (length (concat (spts p :: hpts p))) * (w * h).
Proof.
  intros F. inversion F as [|? ? B0 FH]; subst. destruct (rarea_box w h _ B0) as (WH & A0). split; [exact WH|].
  assert (rsum rarea (hpts p) <= INR (length (concat (map (fun x => x) (hpts p)))) * (w * h)) as Q.
  { apply points_bound; [lra|]. intros cs I. apply rarea_box. rewrite Forall_forall in FH. now apply FH. }
  rewrite map_id in Q. cbn [concat]. rewrite app_length, plus_INR. unfold polygon_area.
  assert (0 <= rsum rarea (hpts p)) by (apply rsum_nonneg; intros; apply rarea_pos). pose proof (rarea_pos (spts p)).
  apply Rabs_le. assert (0 <= INR (length (spts p)) * (w * h)) by (apply Rmult_le_pos; [apply pos_INR|exact WH]).
  assert (0 <= INR (length (concat (hpts p))) * (w * h)) by (apply Rmult_le_pos; [apply pos_INR|exact WH]). lra.
Qed.
Lemma polygon_error_bound w h p : Forall (boxed_ring w h) (spts p :: hpts p) -> (Z.of_nat (length (concat (spts p :: hpts p))) <= 2 ^ 50)%Z ->
  0 <= polygon_error w h p <= INR (length (concat (spts p :: hpts p))) * (4 * (w * h) + 2).
Proof.
  intros F N. inversion F as [|? ? B0 FH]; subst. destruct (rarea_box w h _ B0) as (WH & A0).
  assert (length (hpts p) <= length (concat (spts p :: hpts p)))%nat as Lh.
  { cbn [concat]. rewrite app_length. assert (length (hpts p) <= length (concat (hpts p)))%nat; [|lia].
    clear - FH. induction (hpts p) as [|c l IH]; [cbn; lia|]. inversion FH as [|? ? (Cl & _) FH']; subst. cbn. rewrite app_length.
    specialize (IH FH'). destruct Cl as (x & m & ->). cbn. lia. }
  set (l := spts p :: hpts p) in *.
  assert (forall cs, In cs l -> (length cs <= length (concat l))%nat) as LC.
  { intros cs I. rewrite <- (map_id l) at 1. exact (in_concat_length (fun x => x) _ cs I). }
  assert (rsum rarea l <= INR (length (concat (map (fun x => x) l))) * (w * h)) as Q2.
  { apply points_bound; [lra|]. intros cs I. apply rarea_box. rewrite Forall_forall in F. now apply F. }
  assert (rsum (fun cs => area_error (length cs) w h) l <= INR (length (concat (map (fun x => x) l))) * (w * h + 1)) as Q1.
  { apply points_bound; [lra|]. intros cs I. apply area_error_bound; [exact WH|]. specialize (LC _ I). lia. }
  rewrite map_id in Q1, Q2.
  assert (0 <= rsum rarea l) as P2 by (apply rsum_nonneg; intros; apply rarea_pos).
  assert (0 <= rsum (fun cs => area_error (length cs) w h) l) as P1.
  { apply rsum_nonneg. intros cs I. apply area_error_bound; [exact WH|]. specialize (LC _ I). lia. }
  assert (0 <= INR (length (hpts p)) * bp (-52) <= 1) as K.
  { split; [apply Rmult_le_pos; [apply pos_INR|apply bpow_ge_0]|]. apply Rle_trans with (bp 50 * bp (-52)).
    - apply Rmult_le_compat_r; [apply bpow_ge_0|]. apply INR_50. lia.
    - rewrite <- bpow_plus. change 1 with (bp 0). apply bpow_le. lia. }
  unfold polygon_error. fold l.
  assert (0 <= INR (length (hpts p)) * bp (-52) * rsum rarea l <= 1 * rsum rarea l).
  { split; [apply Rmult_le_pos; lra|apply Rmult_le_compat_r; lra]. }
  assert (0 <= INR (length (concat l)) * (w * h)) by (apply Rmult_le_pos; [apply pos_INR|exact WH]). lra.
Qed.
Theorem C77_area_error : forall w h m, Forall (boxed_ring w h) (all_rings (mg_polys m)) -> w * h <= bp 902 ->
  (Z.of_nat (length (concat (all_rings (mg_polys m)))) <= 2 ^ 50)%Z ->
  let n := INR (length (mg_polys m)) in
  exists r, mg_area m = Ok r /\ fis_finite r = true /\
    Rabs (R_of r - rsum polygon_area (mg_polys m)) <=
      2 * rsum (polygon_error w h) (mg_polys m) + n * bp (-52) * rsum (fun p => Rabs (polygon_area p)) (mg_polys m).
Proof.
  intros w h m FB WH N n. unfold mg_area. match goal with |- context [forN _ 0 _ ?b] => set (body := b) end.
  set (ps := mg_polys m) in *. set (pp := fun p => concat (spts p :: hpts p)).
  assert (forall p, In p ps -> Forall (boxed_ring w h) (spts p :: hpts p)) as FP.
  { intros p I. unfold all_rings in FB. rewrite Forall_concat, Forall_map, Forall_forall in FB. now apply FB. }
  assert (concat (all_rings ps) = concat (map pp ps)) as EC.
  { unfold all_rings, pp. clear. induction ps as [|p ps IH]; [reflexivity|]. cbn [map concat]. now rewrite concat_app, IH. }
  rewrite EC in N.
  assert (forall p, In p ps -> (length (pp p) <= length (concat (map pp ps)))%nat) as LP by (intros p I; now apply in_concat_length).
  assert (length ps <= length (concat (map pp ps)))%nat as Lm.
  { clear - FP. induction ps as [|p ps IH]; [cbn; lia|]. cbn [map concat length]. rewrite app_length.
    specialize (IH (fun q I => FP q (or_intror I))). pose proof (FP p (or_introl eq_refl)) as F. inversion F as [|? ? (Cl & _) _]; subst.
    assert (1 <= length (pp p))%nat by (unfold pp; cbn [concat]; rewrite app_length; destruct Cl as (x & l & ->); cbn [length]; lia). lia. }
  assert (n * bp (-52) <= 1) as K1.
  { apply Rle_trans with (bp 50 * bp (-52)).
    - apply Rmult_le_compat_r; [apply bpow_ge_0|]. apply INR_50. lia.
    - rewrite <- bpow_plus. change 1 with (bp 0). apply bpow_le. lia. }
  assert (0 <= n * bp (-52)) as K0 by (apply Rmult_le_pos; [apply pos_INR|apply bpow_ge_0]).
  assert (forall p, In p ps -> 0 <= polygon_error w h p) as PE.
  { intros p I. apply polygon_error_bound; [now apply FP|]. specialize (LP p I). change (pp p) with (concat (spts p :: hpts p)) in LP. lia. }
  assert (0 <= rsum (polygon_error w h) ps) as PS by now apply rsum_nonneg.
  destruct (run_sum 1 fadd polygon_area (polygon_error w h) body rounds_add ps 0 0 f0 0 0 0) as (r & Er & Fr & Rr).
  - intros i p H. pose proof (nth_error_In _ _ H) as I. destruct (C68_area_error w h p (FP p I) WH) as (t & Et & Ft & Rt).
    { specialize (LP p I). change (pp p) with (concat (spts p :: hpts p)) in LP. lia. }
    exists t. split; [exact Ft|]. split; [exact Rt|]. intros acc. unfold body. cbn [Nat.add]. unfold idx. fold ps. rewrite H. cbn [bind]. rewrite Et. reflexivity.
  - reflexivity.
  - lra.
  - rewrite Rplus_0_l. exact K1.
  - lra.
  - rewrite Rabs_R0. lra.
  - change (R_of f0) with 0. rewrite Rminus_0_r, Rabs_R0. lra.
  - destruct ps as [|p0 ps0] eqn:Eps; [unfold rsum; cbn [fold_right]; rewrite !Rplus_0_l, Rmult_0_r; apply bpow_ge_0|]. rewrite <- Eps in *.
    assert (0 <= w * h) as WH0 by (apply (polygon_area_bound w h p0), FP; rewrite Eps; now left).
    assert (rsum (polygon_error w h) ps <= INR (length (concat (map pp ps))) * (4 * (w * h) + 2)) as Q1.
    { apply points_bound; [lra|]. intros p I. apply polygon_error_bound; [now apply FP|]. specialize (LP p I). change (pp p) with (concat (spts p :: hpts p)) in LP. lia. }
    assert (rsum (fun p => Rabs (polygon_area p)) ps <= INR (length (concat (map pp ps))) * (w * h)) as Q2.
    { apply points_bound; [lra|]. intros p I. apply polygon_area_bound. now apply FP. }
    pose proof (INR_50 _ N) as N50. pose proof (pos_INR (length (concat (map pp ps)))) as N0. set (q := INR (length (concat (map pp ps)))) in *.
    assert (q * (5 * (w * h) + 2) <= bp 50 * bp 905) as Q4.
    { apply Rmult_le_compat; [exact N0|lra|exact N50|]. change 905%Z with (902 + 1 + 1 + 1)%Z. rewrite !bp_S.
      assert (1 <= bp 902) by (change 1 with (bp 0); apply bpow_le; lia). lra. }
    rewrite <- bpow_plus in Q4. assert (2 * bp (50 + 905) <= bp 1022) as Q5.
    { change 2 with (bp 1). rewrite <- bpow_plus. apply bpow_le. lia. }
    replace (q * (5 * (w * h) + 2)) with (q * (4 * (w * h) + 2) + q * (w * h)) in Q4 by ring. lra.
  - exists r. split; [exact Er|]. split; [exact Fr|]. fold n in Rr. rewrite Rmult_1_l, !Rplus_0_l in Rr.
    eapply Rle_trans; [exact Rr|]. apply Rplus_le_compat_r. apply Rmult_le_compat_r; [exact PS|lra].
Qed.

(** A shell and a hole that lie on no grid. *)
Definition small_ring : list Coordinate :=
  [new_xy (oneth 7) f0; new_xy (oneth 3) f0; new_xy (oneth 3) (oneth 7); new_xy (oneth 7) f0].
Definition thirds_poly : GPoly := mkPoly (a_ring thirds) [a_ring small_ring] None None.
Lemma small_ring_below k : (0 <= k)%Z -> Forall (pt_below k) small_ring.
Proof.
  intros Hk. pose proof (thirds_below k Hk) as T. unfold thirds in T.
  inversion T as [|? ? (Z0 & _) T1]; subst. inversion T1 as [|? ? (T3 & _) T2]; subst. inversion T2 as [|? ? (_ & T7) _]; subst.
  cbn [new_xy cx cy] in *. unfold small_ring. repeat (apply Forall_cons; [split; assumption|]). apply Forall_nil.
Qed.
Example C68_area_error_example : Forall (boxed_ring (/ 2) (/ 4)) (spts thirds_poly :: hpts thirds_poly) /\ / 2 * / 4 <= bp 902 /\
  match pg_area thirds_poly with Ok r => fltb f0 r | Panic => false end = true.
Proof.
  destruct third_val as [F3 V3]. destruct seventh_val as [F7 V7].
  split; [|split; [|vm_compute; reflexivity]].
  - apply Forall_cons; [|apply Forall_cons; [|apply Forall_nil]].
    + destruct C47_error_example as (Cl & _ & Bx & _). split; [exact Cl|]. split; [apply thirds_below; lia|exact Bx].
    + split; [exists (new_xy (oneth 7) f0), [new_xy (oneth 3) f0; new_xy (oneth 3) (oneth 7)]; reflexivity|]. split; [apply small_ring_below; lia|].
      exists 0, 0. cbn [hpts thirds_poly pg_holes]. unfold rpts, a_ring, small_ring. cbn [rg_seq scoords seq_of map]. unfold plane. cbn [new_xy cx cy].
      change (R_of f0) with 0. repeat (apply Forall_cons; [cbn [fst snd]; lra|]). apply Forall_nil.
  - apply Rle_trans with (bp 0); [cbn; lra|apply bpow_le; lia].
Qed.
Example C77_area_error_example : let m := mg_new [thirds_poly; thirds_poly] None in
  Forall (boxed_ring (/ 2) (/ 4)) (all_rings (mg_polys m)) /\ length (concat (all_rings (mg_polys m))) = 16%nat.
Proof.
  cbv zeta. split; [|reflexivity]. destruct C68_area_error_example as (F & _). unfold all_rings. cbn [mg_new mg_polys map concat].
  apply Forall_app. split; [exact F|]. rewrite app_nil_r. exact F.
Qed.
Example C68_length_error_example : hypot_accurate hypot_nearest /\ 
  let p := mkPoly (a_ring thirds) [a_ring thirds] None None in Forall long_ring (spts p :: hpts p).
Proof.
  destruct C48_error_example as (H & B & S & _). split; [exact H|]. repeat (apply Forall_cons; [split; [exact B|exact S]|]). apply Forall_nil.
Qed.
