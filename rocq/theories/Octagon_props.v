(** C59: octagonal envelopes. *)
From Coq Require Import ZArith Bool List Lia ZifyBool Reals Lra.
From Flocq Require Import Core IEEE754.BinarySingleNaN.
From Verif Require Import Base F64 F64Facts F64Err Coordinate_model Envelope_model Envelope_spec Envelope_proofs CoordSeq_model
  Orientation_proofs Orientation_props PrecisionModel_proofs Octagon_model Octagon_spec Octagon_proofs.
Import ListNotations.
Open Scope Z_scope.

(** On a non-null octagon the point test is membership in the four bands. *)
Theorem C59_point_test : forall o p, is_oct o -> nn_oct p -> (oct_intersects o p = true <-> in_oct o p).
Proof. exact intersects_in. Qed.
(** The octagonal envelope of a sequence: null exactly when the sequence is
    empty, meets every point of it, has the plain envelope as its box part (to
    the bit), and is contained in another octagon exactly when that one meets
    all the points. *)
Theorem C59_sequence : forall s, Forall nn_oct (scoords s) -> exists o, oct_expand_seq oct_default s = Ok o /\
  oct_is_valid o = true /\ (oct_is_null o = true <-> scoords s = []) /\
  (forall p, In p (scoords s) -> oct_intersects o p = true) /\
  (scoords s <> [] -> mkE (ominx o) (omaxx o) (ominy o) (omaxy o) = envelope_of (scoords s)) /\
  (scoords s <> [] -> forall r, is_oct r ->
     (oct_contains r o = true <-> forall p, In p (scoords s) -> oct_intersects r p = true)).
Proof.
  intros s F. rewrite expand_seq_fold. eexists. split; [reflexivity|]. change (fold_left oct_expand_coordinate (scoords s) oct_default) with (oct_of_points (scoords s)).
  destruct (scoords s) as [|q l] eqn:E.
  - cbn. repeat split; try easy.
  - destruct (of_points_oct (q :: l) F ltac:(easy)) as (O & L). rewrite Forall_forall in F.
    split; [apply valid_wf; now right|]. split; [rewrite is_oct_not_null by exact O; split; discriminate|]. split; [|split].
    + intros p I. apply intersects_in; [exact O|now apply F|]. specialize (proj1 (L _ O) (sub_refl _)). rewrite Forall_forall. auto.
    + intros _. change (mkE _ _ _ _) with (box_of (oct_of_points (q :: l))). unfold oct_of_points. cbn [fold_left].
      change (envelope_of (q :: l)) with (fold_left expand_to_include_coordinate l (expand_to_include_xy env_default (cx q) (cy q))).
      apply box_fold; [|rewrite Forall_forall; intros; apply F; now right|reflexivity].
      change (oct_expand_coordinate oct_default q) with (pt_oct (cx q) (cy q)). apply pt_oct_ok, F. now left.
    + intros _ r R. rewrite contains_sub, L by assumption. rewrite Forall_forall. split; intros H p I.
      * apply intersects_in; [exact R|now apply F|now apply H].
      * apply intersects_in; [exact R|now apply F|now apply H].
Qed.
(** So it contains the octagonal envelope of every non-empty part of it. *)
Theorem C59_part : forall s s' o o', Forall nn_oct (scoords s) -> scoords s' <> [] -> incl (scoords s') (scoords s) ->
  oct_expand_seq oct_default s = Ok o -> oct_expand_seq oct_default s' = Ok o' -> oct_contains o o' = true.
Proof.
  intros s s' o o' F N I E E'. assert (Forall nn_oct (scoords s')) as F' by (rewrite Forall_forall in *; auto).
  destruct (C59_sequence s F) as (p & Ep & V & Nl & M & _). rewrite E in Ep. injection Ep as <-.
  destruct (C59_sequence s' F') as (p & Ep & _ & _ & _ & _ & L). rewrite E' in Ep. injection Ep as <-.
  apply L; [exact N| |intros q J; apply M, I, J].
  apply valid_wf in V. destruct V as [V|V]; [|exact V]. exfalso. apply Nl in V. destruct (scoords s') as [|q l]; [easy|]. specialize (I q (or_introl eq_refl)). rewrite V in I. exact I.
Qed.
(** It meets every point of the convex hull of the sequence, so it encloses
    the line and the area too; for ordinates up to 2^1022 in size. *)
Definition sized (p : Coordinate) : Prop := fin_xy p /\ (Rabs (R_of (cx p)) <= bp 1022 /\ Rabs (R_of (cy p)) <= bp 1022)%R.
Lemma wsum_le ws vs b : Forall (fun w => 0 <= w)%R ws -> Forall (fun v => v <= b)%R vs -> length ws = length vs ->
  (wsum ws vs <= b * wsum ws (map (fun _ => 1) vs))%R.
Proof.
  revert vs. induction ws as [|w ws IH]; intros [|v vs] W V L; try discriminate; cbn [wsum map]; [lra|].
  inversion_clear W as [|? ? W1 W']. inversion_clear V as [|? ? V1 V']. injection L as L. specialize (IH vs W' V' L).
  pose proof (Rmult_le_compat_l w v b W1 V1). lra.
Qed.
Lemma wsum_lin ws (A : Type) (f g : A -> R) (l : list A) k :
  (wsum ws (map f l) + k * wsum ws (map g l) = wsum ws (map (fun x => f x + k * g x) l))%R.
Proof. revert l. induction ws as [|w ws IH]; intros [|x l]; cbn; try lra. rewrite <- IH. ring. Qed.
Lemma wsum_one ws (A : Type) (l : list A) f : wsum ws (map (fun _ => 1%R) l) = wsum ws (map (fun _ => 1%R) (map f l : list R)).
Proof. revert l. induction ws as [|w ws IH]; intros [|x l]; cbn; try reflexivity. now rewrite IH. Qed.
Lemma hull_upper (pts : list Coordinate) ws (f : Coordinate -> R) b : length ws = length pts -> Forall (fun w => 0 <= w)%R ws ->
  wsum ws (map (fun _ => 1%R) pts) = 1%R -> (forall q, In q pts -> f q <= b)%R -> (wsum ws (map f pts) <= b)%R.
Proof.
  intros L W S H. eapply Rle_trans; [apply wsum_le with (b := b); [exact W| |now rewrite map_length]|].
  - rewrite Forall_forall. intros v I. apply in_map_iff in I. destruct I as (q & <- & I). now apply H.
  - rewrite <- wsum_one, S. lra.
Qed.
Lemma sums_fin p : sized p -> fis_finite (fadd (cx p) (cy p)) = true /\ R_of (fadd (cx p) (cy p)) = RN (R_of (cx p) + R_of (cy p)) /\
  fis_finite (fsub (cx p) (cy p)) = true /\ R_of (fsub (cx p) (cy p)) = RN (R_of (cx p) - R_of (cy p)).
Proof.
  intros ((Fx & Fy) & (Bx & By_)).
  assert (bp 1023 = bp 1022 + bp 1022)%R as D by (change 1023%Z with (1022 + 1)%Z; rewrite bpow_plus; change (bp 1) with 2%R; ring).
  assert (bp 1023 < bp 1024)%R as LT by (apply bpow_lt; lia). apply Rabs_le_inv in Bx, By_.
  destruct (fadd_R (cx p) (cy p) Fx Fy) as (A & B). { eapply Rle_lt_trans; [apply RN_abs_le with (k := 1023); [lia|]|exact LT]. apply Rabs_le. lra. }
  destruct (fsub_R (cx p) (cy p) Fx Fy) as (C & E). { eapply Rle_lt_trans; [apply RN_abs_le with (k := 1023); [lia|]|exact LT]. apply Rabs_le. lra. }
  auto.
Qed.
Theorem C59_hull : forall s o p, scoords s <> [] -> Forall sized (scoords s) -> fin_xy p -> in_hull (scoords s) p ->
  oct_expand_seq oct_default s = Ok o -> oct_intersects o p = true.
Proof.
  intros s o p NE F Fp (ws & L & W & S1 & HX & HY) E.
  assert (Forall nn_oct (scoords s)) as FN by (rewrite Forall_forall in *; intros q I; apply fin_nn_oct; apply F; exact I).
  rewrite expand_seq_fold in E. injection E as <-. destruct (of_points_oct (scoords s) FN NE) as (O & SUB). fold (oct_of_points (scoords s)).
  set (o := oct_of_points (scoords s)) in *. specialize (proj1 (SUB o O) (sub_refl o)) as IN. rewrite Forall_forall in IN, F.
  assert (sized p) as SP.
  { split; [exact Fp|]. rewrite HX, HY. split; apply Rabs_le; (split; [|apply hull_upper; auto; intros q I; apply F in I; destruct I as (_ & B1 & B2); apply Rabs_le_inv in B1, B2; lra]).
    - assert (wsum ws (map (fun q => 0 + -1 * R_of (cx q))%R (scoords s)) <= bp 1022)%R as U.
      { apply hull_upper; auto. intros q I; apply F in I; destruct I as (_ & B1 & B2); apply Rabs_le_inv in B1; lra. }
      rewrite <- wsum_lin in U. assert (wsum ws (map (fun _ : Coordinate => 0%R) (scoords s)) = 0)%R as Z; [|lra].
      clear. generalize (scoords s). induction ws as [|w ws IH]; intros [|q l]; cbn; try reflexivity. rewrite IH. ring.
    - assert (wsum ws (map (fun q => 0 + -1 * R_of (cy q))%R (scoords s)) <= bp 1022)%R as U.
      { apply hull_upper; auto. intros q I; apply F in I; destruct I as (_ & B1 & B2); apply Rabs_le_inv in B2; lra. }
      rewrite <- wsum_lin in U. assert (wsum ws (map (fun _ : Coordinate => 0%R) (scoords s)) = 0)%R as Z; [|lra].
      clear. generalize (scoords s). induction ws as [|w ws IH]; intros [|q l]; cbn; try reflexivity. rewrite IH. ring. }
  apply intersects_in; [exact O|now apply fin_nn_oct|]. apply in_oct_inb. apply is_oct_ok in O. destruct O as (O1 & O2 & O3 & O4).
  (* one axis: [v] is monotone in the linear form [f] *)
  assert (forall lo hi (v : Coordinate -> f64) (ka kb : R), okb lo hi ->
    (forall q, sized q -> fis_finite (v q) = true /\ R_of (v q) = RN (ka * R_of (cx q) + kb * R_of (cy q)))%R ->
    (forall q, In q (scoords s) -> inb lo hi (v q)) -> inb lo hi (v p)) as AX.
  { clear O1 O2 O3 O4. intros lo hi v ka kb (N1 & N2 & _) V H. destruct (V p SP) as (Fv & Ev).
    split; [exact N1|]. split; [exact N2|]. split; [now apply nn_finite|].
    set (f := fun q => (ka * R_of (cx q) + kb * R_of (cy q))%R) in *.
    assert (f p = wsum ws (map f (scoords s))) as FP.
    { unfold f. rewrite HX, HY. clear. generalize (scoords s). induction ws as [|w ws IH]; intros [|q l]; cbn; try ring. specialize (IH l). lra. }
    assert (forall g, (forall q, In q (scoords s) -> f q < g)%R -> f p < g)%R as UP.
    { intros g Hg. destruct (Rlt_or_le (f p) g) as [?|C]; [assumption|exfalso].
      (* the largest value is below [g] *)
      assert (exists m, (forall q, In q (scoords s) -> f q <= m)%R /\ (m < g)%R) as (m & M1 & M2).
      { clear - Hg NE. induction (scoords s) as [|q l IH]; [easy|]. destruct l as [|q' l].
        - exists (f q). split; [intros r [->|[]]; lra|apply Hg; now left].
        - destruct IH as (m & M1 & M2); [easy|intros r I; apply Hg; now right|]. exists (Rmax m (f q)). split.
          + intros r [->|I]; [apply Rmax_r|]. eapply Rle_trans; [now apply M1|apply Rmax_l].
          + apply Rmax_lub_lt; [exact M2|apply Hg; now left]. }
      assert (wsum ws (map f (scoords s)) <= m)%R by (apply hull_upper; auto). lra. }
    assert (forall g, (forall q, In q (scoords s) -> g < f q)%R -> g < f p)%R as DN.
    { intros g Hg. destruct (Rlt_or_le g (f p)) as [?|C]; [assumption|exfalso].
      assert (exists m, (forall q, In q (scoords s) -> m <= f q)%R /\ (g < m)%R) as (m & M1 & M2).
      { clear - Hg NE. induction (scoords s) as [|q l IH]; [easy|]. destruct l as [|q' l].
        - exists (f q). split; [intros r [->|[]]; lra|apply Hg; now left].
        - destruct IH as (m & M1 & M2); [easy|intros r I; apply Hg; now right|]. exists (Rmin m (f q)). split.
          + intros r [->|I]; [apply Rmin_r|]. eapply Rle_trans; [apply Rmin_l|now apply M1].
          + apply Rmin_glb_lt; [exact M2|apply Hg; now left]. }
      assert (wsum ws (map (fun q => 0 + -1 * f q)%R (scoords s)) <= - m)%R as U by (apply hull_upper; auto; intros q I; specialize (M1 q I); lra).
      rewrite <- wsum_lin in U. assert (wsum ws (map (fun _ : Coordinate => 0%R) (scoords s)) = 0)%R as Z; [|lra].
      clear. generalize (scoords s). induction ws as [|w ws IH]; intros [|q l]; cbn; try reflexivity. rewrite IH. ring. }
    split; apply Z.le_ngt; intros C.
    - apply (Rlt_irrefl (f p)). apply DN. intros q I. destruct (V q (F q I)) as (Fq & Eq). destruct (H q I) as (_ & _ & _ & G).
      assert (R_of (v p) < R_of (v q))%R as K by (apply rank_ltR; auto; lia). rewrite Ev, Eq in K. apply Rnot_le_lt. intros J. apply RN_le in J. fold (f q) in J, K. fold (f p) in J, K. lra.
    - apply (Rlt_irrefl (f p)). apply UP. intros q I. destruct (V q (F q I)) as (Fq & Eq). destruct (H q I) as (_ & _ & _ & G).
      assert (R_of (v q) < R_of (v p))%R as K by (apply rank_ltR; auto; lia). rewrite Ev, Eq in K. apply Rnot_le_lt. intros J. apply RN_le in J. fold (f q) in J, K. fold (f p) in J, K. lra. }
  split; [|split; [|split]].
  - apply (AX _ _ (fun q => cx q) 1%R 0%R O1); [|intros q I; apply IN in I; apply in_oct_inb in I; tauto].
    intros q ((Fx & _) & _). split; [exact Fx|]. replace (1 * R_of (cx q) + 0 * R_of (cy q))%R with (R_of (cx q)) by ring. symmetry. apply RN_id, format_R.
  - apply (AX _ _ (fun q => cy q) 0%R 1%R O2); [|intros q I; apply IN in I; apply in_oct_inb in I; tauto].
    intros q ((_ & Fy) & _). split; [exact Fy|]. replace (0 * R_of (cx q) + 1 * R_of (cy q))%R with (R_of (cy q)) by ring. symmetry. apply RN_id, format_R.
  - apply (AX _ _ (fun q => fadd (cx q) (cy q)) 1%R 1%R O3); [|intros q I; apply IN in I; apply in_oct_inb in I; tauto].
    intros q Q. destruct (sums_fin q Q) as (A & B & _). split; [exact A|]. rewrite B. f_equal. ring.
  - apply (AX _ _ (fun q => fsub (cx q) (cy q)) 1%R (-1)%R O4); [|intros q I; apply IN in I; apply in_oct_inb in I; tauto].
    intros q Q. destruct (sums_fin q Q) as (_ & _ & A & B). split; [exact A|]. rewrite B. f_equal. ring.
Qed.
(** The point (1,1) is in the hull of (0,0), (2,2) and (0,4), and met; (2,0)
    is in the box of these points but outside the octagon. *)
Example C59_example : let s := seq_of [ipt 0 0; ipt 2 2; ipt 0 4] in
  Forall sized (scoords s) /\ in_hull (scoords s) (ipt 1 1) /\
  exists o, oct_expand_seq oct_default s = Ok o /\ oct_intersects o (ipt 1 1) = true /\ oct_intersects o (ipt 2 0) = false /\
    covers_xy (envelope_of (scoords s)) (cx (ipt 2 0)) (cy (ipt 2 0)) = true.
Proof.
  cbv zeta. split; [|split].
  - assert (forall x y, (Z.abs x <= 4 -> Z.abs y <= 4 -> sized (ipt x y))%Z) as S.
    { assert (forall n, (Z.abs n <= 4)%Z -> fis_finite (fofZ n) = true /\ (Rabs (R_of (fofZ n)) <= bp 1022)%R) as B.
      { intros n Hn. destruct (grid_fofZ n ltac:(lia)) as (F & E). split; [exact F|]. rewrite E. change (bp 0) with 1%R. rewrite Rmult_1_r, <- abs_IZR.
        eapply Rle_trans; [apply IZR_le, Hn|]. change 4%R with (bp 2). apply bpow_le. lia. }
      intros x y Hx Hy. destruct (B x Hx), (B y Hy). repeat split; assumption. }
    cbn [scoords seq_of]. repeat (apply Forall_cons; [apply S; cbn; lia|]). apply Forall_nil.
  - exists [(1/2)%R; (1/2)%R; 0%R]. cbn [scoords seq_of map wsum length].
    assert (forall n, (Z.abs n <= 4)%Z -> R_of (fofZ n) = IZR n) as B.
    { intros n Hn. destruct (grid_fofZ n ltac:(lia)) as (_ & ->). change (bp 0) with 1%R. now rewrite Rmult_1_r. }
    split; [reflexivity|]. split; [repeat constructor; lra|]. split; [lra|].
    change (cx (ipt ?a ?b)) with (fofZ a). change (cy (ipt ?a ?b)) with (fofZ b). rewrite !B by (cbn; lia). split; lra.
  - eexists. split; [rewrite expand_seq_fold; reflexivity|]. repeat split; vm_compute; reflexivity.
Qed.
(** ** Null octagons *)
(** A null octagon neither meets nor contains another one. *)
Theorem C59_null_oct : forall o t, oct_is_null o = true \/ oct_is_null t = true ->
  oct_intersects_oct o t = false /\ oct_contains o t = false.
Proof. intros o t [H|H]; unfold oct_intersects_oct, oct_contains; rewrite H, ?orb_true_r; auto. Qed.
(** But the point test does not look for null: the default octagon meets the
    origin, and no other point. *)
Theorem C59_null_refuted : (exists p, fin_xy p /\ oct_intersects oct_default p = true) /\
  forall p, fin_xy p -> (oct_intersects oct_default p = true <-> feqb (cx p) f0 = true /\ feqb (cy p) f0 = true).
Proof.
  split; [exists (ipt 0 0); repeat split|]. intros p Fp. pose proof (fin_nn_oct p Fp) as N. apply nn_oct_4 in N. destruct N as (N1 & N2 & N3 & N4).
  unfold oct_intersects, oct_default, compute_a, compute_b. cbn [ominx omaxx ominy omaxy omina omaxa ominb omaxb].
  change (fgtb fnan (cx p)) with (fltb (cx p) fnan). rewrite fltb_nan_r by reflexivity. cbv iota zeta.
  assert (nn f0) as N0 by reflexivity. rewrite !fgtb_rank, !fltb_rank, !feqb_rank by assumption. change (rank f0) with 0.
  destruct (Z.ltb_spec 0 (rank (cx p))); [split; [discriminate|lia]|].
  destruct (Z.ltb_spec (rank (cy p)) 0); [split; [discriminate|lia]|].
  destruct (Z.ltb_spec 0 (rank (cy p))); [split; [discriminate|lia]|].
  assert (rank (cy p) = 0) as Y by lia. destruct Fp as (Fx & Fy).
  assert (exists z, cy p = B754_zero z) as (z & Z).
  { destruct (cy p) as [z| | |sg m e Hb]; try discriminate Fy; [now exists z|]. exfalso.
    revert Y. clear. intros Y. assert (R_of (B754_finite sg m e Hb) = 0)%R as E.
    { change 0%R with (R_of f0). apply Rle_antisym; apply rank_leR; auto; change (rank f0) with 0; lia. }
    revert E. unfold R_of. cbn. intros E. apply eq_0_F2R in E. destruct sg; discriminate. }
  rewrite Z in *. rewrite fsub_fadd. assert (fneg (B754_zero z) = B754_zero (negb z)) as -> by reflexivity. rewrite !fadd_0_rank by assumption.
  destruct (Z.ltb_spec (rank (cx p)) 0); [split; [discriminate|lia]|].
  destruct (Z.ltb_spec 0 (rank (cx p))); [lia|]. split; [intros _|reflexivity]. split; lia.
Qed.
(** ** Octagons against octagons *)
Theorem C59_contains : forall a b c, is_oct a -> is_oct b -> is_oct c ->
  oct_contains a a = true /\
  (oct_contains a b = true -> oct_contains b c = true -> oct_contains a c = true) /\
  (oct_contains a b = true -> oct_intersects_oct a b = true) /\
  (oct_contains a b = true -> forall p, nn_oct p -> oct_intersects b p = true -> oct_intersects a p = true) /\
  oct_intersects_oct a b = oct_intersects_oct b a /\
  (forall p, nn_oct p -> oct_intersects a p = true -> oct_intersects b p = true -> oct_intersects_oct a b = true).
Proof.
  intros a b c A B C. rewrite !contains_sub by assumption. split; [apply sub_refl|]. split; [intros X Y; eapply sub_trans; eauto|].
  split; [|split; [|split]].
  - intros S. apply meets_ranks; [assumption..|]. apply is_oct_ok in A, B. unfold okb, sub_oct, subb in *. lia.
  - intros S p N. rewrite !intersects_in, !in_oct_sub by assumption. intros Q. eapply sub_trans; eauto.
  - apply eq_true_iff_eq. rewrite !meets_ranks by assumption. lia.
  - intros p N. rewrite !intersects_in, !in_oct_sub by assumption. rewrite meets_ranks by assumption. unfold sub_oct, subb, pt_oct.
    cbn [ominx omaxx ominy omaxy omina omaxa ominb omaxb]. lia.
Qed.
(** Including an octagon gives the least octagon containing both. *)
Theorem C59_union : forall a b c, is_oct a -> is_oct b -> is_oct c ->
  let u := oct_expand_oct a b in
  is_oct u /\ oct_contains u a = true /\ oct_contains u b = true /\
  (oct_contains c u = true <-> oct_contains c a = true /\ oct_contains c b = true) /\
  oct_expand_oct oct_default b = b /\ oct_expand_oct a oct_default = a.
Proof.
  intros a b c A B C u. assert (u = join a b) as E by (unfold u; rewrite expand_oct_join; now rewrite !is_oct_not_null by assumption).
  assert (is_oct u) as U by (rewrite E; now apply join_ok). rewrite !contains_sub by assumption. split; [exact U|].
  pose proof (proj1 (join_sub a b u A B)) as J. rewrite <- E in J. destruct (J (sub_refl u)). split; [assumption|]. split; [assumption|].
  split; [rewrite E; now apply join_sub|]. rewrite !expand_oct_join. rewrite is_oct_not_null by exact B. split; reflexivity.
Qed.
Example C59_union_example : let a := oct_of_coordinates (ipt 0 0) (ipt 1 3) in let b := oct_of_coordinate (ipt 5 1) in
  is_oct a /\ is_oct b /\ oct_intersects_oct a b = false /\ oct_contains a b = false /\ oct_contains (oct_expand_oct a b) b = true.
Proof. cbv zeta. split; [repeat constructor|]. split; [repeat constructor|]. repeat split. Qed.
(** ** From envelopes *)
(** The octagon of a finite non-null envelope has the same box part and meets
    exactly the points of the envelope. *)
Theorem C59_envelope : forall e, is_box e -> Forall (fun v => fis_finite v = true) [minx e; maxx e; miny e; maxy e] ->
  let o := oct_of_envelope e in
  is_oct o /\ same_points (mkE (ominx o) (omaxx o) (ominy o) (omaxy o)) e /\
  forall p, fin_xy p -> (oct_intersects o p = true <-> in_box e (cx p) (cy p)).
Proof.
  intros e B F. apply forall_4 in F. destruct F as (F1 & F2 & F3 & F4). cbv zeta.
  set (c := [mkC (minx e) (miny e) f0 f0; mkC (minx e) (maxy e) f0 f0; mkC (maxx e) (miny e) f0 f0; mkC (maxx e) (maxy e) f0 f0]).
  assert (oct_of_envelope e = oct_of_points c) as E by reflexivity.
  assert (Forall nn_oct c) as FC by (repeat (constructor; [apply fin_nn_oct; split; assumption|]); constructor).
  destruct (of_points_oct c FC ltac:(easy)) as (O & SUB). rewrite E. split; [exact O|].
  specialize (proj1 (SUB _ O) (sub_refl _)) as IN. apply forall_4 in IN. destruct IN as (I1 & I2 & I3 & I4).
  apply in_oct_inb in I1, I2, I3, I4. cbn [cx cy] in *. unfold inb in *.
  assert (rank (minx e) <= rank (ominx (oct_of_points c)) /\ rank (omaxx (oct_of_points c)) <= rank (maxx e) /\
    rank (miny e) <= rank (ominy (oct_of_points c)) /\ rank (omaxy (oct_of_points c)) <= rank (maxy e)) as UP.
  { boxes. assert (is_oct (mkO (minx e) (maxx e) (miny e) (maxy e) (B754_infinity true) finf (B754_infinity true) finf)) as OO.
    { apply is_oct_ok. cbn [ominx omaxx ominy omaxy omina omaxa ominb omaxb]. repeat split; auto; discriminate. }
    assert (forall p, fin_xy p -> inb (B754_infinity true) finf (fadd (cx p) (cy p)) /\ inb (B754_infinity true) finf (fsub (cx p) (cy p))) as INF.
    { intros p Fp. apply fin_nn_oct, nn_oct_4 in Fp. destruct Fp as (_ & _ & N3 & N4). unfold inb. change finf with (B754_infinity false : f64). rewrite !rank_inf.
      pose proof (rank_le_inf _ N3). pose proof (rank_ge_inf _ N3). pose proof (rank_le_inf _ N4). pose proof (rank_ge_inf _ N4). repeat split; auto. }
    specialize (proj2 (SUB _ OO)) as S. destruct S as ((S1 & S2) & (S3 & S4) & _); [|cbn [ominx omaxx ominy omaxy] in *; lia].
    apply forall_4. repeat match goal with |- _ /\ _ => split end; apply in_oct_inb; cbn [ominx omaxx ominy omaxy omina omaxa ominb omaxb cx cy];
      match goal with |- context [fadd ?u ?v] => destruct (INF (mkC u v f0 f0) ltac:(split; assumption)) as (J1 & J2) end;
      (split; [|split; [|split; [exact J1|exact J2]]]); unfold inb; repeat split; auto; lia. }
  destruct (is_box_ranks e B) as (N1 & N2 & N3 & N4 & R1 & R2). split.
  - unfold same_points, in_box. cbn [minx maxx miny maxy]. intros x y. rewrite !lef_rank. intuition lia.
  - intros p Fp. rewrite intersects_in by (assumption || now apply fin_nn_oct). rewrite in_oct_inb. unfold in_box, inb. rewrite !lef_rank.
    pose proof (proj1 (nn_oct_4 p) (fin_nn_oct p Fp)) as (P1 & P2 & P3 & P4). destruct Fp as (Fx & Fy). split; [intuition lia|].
    intros ((_ & _ & L1) & (_ & _ & L2) & (_ & _ & L3) & (_ & _ & L4)).
    assert (forall x y x' y', nn x -> fis_finite x' = true -> fis_finite y = true -> fis_finite y' = true -> rank x <= rank x' -> rank y <= rank y' -> rank (fadd x y) <= rank (fadd x' y')) as MON.
    { intros x y x' y' ? ? ? ? ? ?. apply Z.le_trans with (rank (fadd x' y)); [apply fadd_le; auto; now apply nn_finite|].
      rewrite (fadd_comm x' y), (fadd_comm x' y'). apply fadd_le; auto; now apply nn_finite. }
    pose proof (MON (minx e) (miny e) (cx p) (cy p) N1 Fx F3 Fy L1 L3). pose proof (MON (cx p) (cy p) (maxx e) (maxy e) P1 F2 Fy F4 L2 L4).
    assert (rank (fneg (maxy e)) <= rank (fneg (cy p)) <= rank (fneg (miny e))) as (M1 & M2) by (rewrite !rank_fneg; lia).
    pose proof (MON (minx e) (fneg (maxy e)) (cx p) (fneg (cy p)) N1 Fx ltac:(now rewrite fneg_fin) ltac:(now rewrite fneg_fin) L1 M1) as Q1.
    pose proof (MON (cx p) (fneg (cy p)) (maxx e) (fneg (miny e)) P1 F2 ltac:(now rewrite fneg_fin) ltac:(now rewrite fneg_fin) L2 M2) as Q2.
    rewrite <- !fsub_fadd in Q1, Q2. intuition lia.
Qed.
Example C59_envelope_example : let e := env_new_coordinates (ipt 0 0) (ipt 3 1) in
  is_box e /\ oct_intersects (oct_of_envelope e) (ipt 3 1) = true /\ oct_intersects (oct_of_envelope e) (ipt 3 2) = false.
Proof. cbv zeta. repeat split. Qed.
(** From the null envelope it builds a non-null octagon, on four made-up points. *)
Theorem C59_envelope_null_refuted : is_null env_default = true /\ oct_is_null (oct_of_envelope env_default) = false /\
  oct_intersects (oct_of_envelope env_default) (ipt (-1) (-1)) = true.
Proof. repeat split. Qed.
(** ** Growing and shrinking *)
(** By a positive distance it contains the old one; by a negative one it is
    null or inside the old one; null stays null. *)
Theorem C59_expand_by : forall o d, wf_oct o -> fis_finite d = true -> fis_finite (fmul (fsqrt f2) d) = true ->
  let r := oct_expand_by o d in
  wf_oct r /\ (oct_is_null o = true -> r = o) /\
  (oct_is_null o = false -> fleb f0 d = true -> oct_contains r o = true) /\
  (oct_is_null o = false -> fleb d f0 = true -> oct_is_null r = true \/ oct_contains o r = true).
Proof.
  intros o d W Fd FD. cbv zeta. unfold oct_expand_by.
  destruct (wf_oct_cases o W) as [N|(O & N)]; rewrite N.
  { split; [exact W|]. split; [reflexivity|]. split; discriminate. }
  set (dd := fmul (fsqrt f2) d) in *. cbv zeta.
  assert ((0 <= rank d -> 0 <= rank dd) /\ (rank d <= 0 -> rank dd <= 0)) as (SG1 & SG2).
  { assert (posf (fsqrt f2)) as SQ.
    { split; [vm_compute; reflexivity|]. change 0%R with (R_of f0). apply rank_ltR; vm_compute; reflexivity. }
    assert (rank (fmul f0 (fsqrt f2)) = 0) as Z by (vm_compute; reflexivity). unfold dd. rewrite fmul_comm, <- Z.
    assert (nn f0) as N0 by reflexivity. pose proof (nn_finite d Fd) as Nd. change 0 with (rank f0).
    split; intros L; now apply fmul_le. }
  set (r := mkO _ _ _ _ _ _ _ _). pose proof O as O'. apply is_oct_ok in O. destruct O as (O1 & O2 & O3 & O4).
  destruct (widen_ok _ _ _ O1 Fd) as (A1 & A2 & A3 & A4). destruct (widen_ok _ _ _ O2 Fd) as (B1 & B2 & B3 & B4).
  destruct (widen_ok _ _ _ O3 FD) as (C1 & C2 & C3 & C4). destruct (widen_ok _ _ _ O4 FD) as (D1 & D2 & D3 & D4).
  assert (oct_is_null r = false) as NR by exact A1.
  assert (nn f0) as N0 by reflexivity. pose proof (nn_finite d Fd) as Nd.
  destruct (oct_is_valid r) eqn:V.
  - assert (is_oct r) as OR by (apply valid_wf in V; destruct V as [V|V]; [congruence|exact V]).
    split; [now right|]. split; [discriminate|]. rewrite !contains_sub by assumption. rewrite !fleb_rank by assumption. change (rank f0) with 0.
    split; intros _ L; [|right]; unfold sub_oct, r; cbn [ominx omaxx ominy omaxy omina omaxa ominb omaxb].
    + assert (0 <= rank d) as L' by lia. specialize (SG1 L'). auto.
    + assert (rank d <= 0) as L' by lia. specialize (SG2 L'). auto.
  - split; [now left|]. split; [discriminate|]. split; [|now left]. intros _ L. exfalso. rewrite fleb_rank in L by assumption. change (rank f0) with 0 in L.
    assert (0 <= rank d) as L' by lia. specialize (SG1 L'). specialize (A3 L'). specialize (B3 L'). specialize (C3 SG1). specialize (D3 SG1).
    assert (oct_is_valid r = true); [|congruence]. apply valid_wf. right. apply is_oct_ok. unfold okb, subb, r in *. cbn [ominx omaxx ominy omaxy omina omaxa ominb omaxb] in *.
    intuition lia.
Qed.
(** Every sequence of changes leaves a value that passes [is_valid]. *)
Theorem C59_ops : forall ops, Forall oct_op_ok ops -> oct_is_valid (fold_left oct_apply ops oct_default) = true.
Proof.
  assert (forall o p, wf_oct o -> oct_op_ok p -> wf_oct (oct_apply o p)) as STEP.
  { assert (forall o p, wf_oct o -> nn_oct p -> is_oct (oct_expand_coordinate o p)) as PT.
    { intros o p W N. unfold oct_expand_coordinate. rewrite expand_xy_join. pose proof (pt_oct_ok p N).
      destruct (wf_oct_cases o W) as [E|(O & E)]; rewrite E; [assumption|now apply join_ok]. }
    intros o [p|t|e|d|] W K; cbn [oct_apply oct_op_ok] in *.
    - right. now apply PT.
    - rewrite expand_oct_join. destruct (wf_oct_cases t K) as [E|(O & E)]; rewrite E; [exact W|].
      destruct (wf_oct_cases o W) as [E'|(O' & E')]; rewrite E'; right; [exact O|now apply join_ok].
    - apply forall_4 in K. destruct K as (F1 & F2 & F3 & F4). right. unfold oct_expand_envelope.
      assert (forall o x y, wf_oct o -> fis_finite x = true -> fis_finite y = true -> is_oct (oct_expand_xy o x y)) as PX
        by (intros o' x y W' Fx Fy; apply (PT o' (mkC x y f0 f0)); [exact W'|apply fin_nn_oct; split; assumption]).
      cbv zeta. repeat (apply PX; [first [exact W | right]|assumption..]); assumption.
    - destruct K. now apply C59_expand_by.
    - left. reflexivity. }
  intros ops F. apply valid_wf. assert (wf_oct oct_default) as W by now left. revert W. generalize oct_default.
  induction F as [|p ops K F IH]; intros o W; cbn [fold_left]; [exact W|]. apply IH. now apply STEP.
Qed.
