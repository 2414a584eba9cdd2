(** C75: spatial dimension and measures of coordinates, arrays and sequences. *)
From Coq Require Import ZArith Bool List Lia.
From Verif Require Import Base F64 F64Facts Coordinate_model Envelope_model CoordArrays_model CoordSeq_model Measure_model.
Import ListNotations.
Open Scope Z_scope.

(** 1 if the ordinate is there, 0 if it is NaN. *)
Definition present (v : f64) : Z := if fis_nan v then 0 else 1.

(** With X and Y there, the dimension counts the ordinates present and the
    measure is M; any other coordinate counts as XYZ. *)
Theorem C75_coordinate : forall c,
  (nn (cx c) -> nn (cy c) ->
   coords_dimension c = 2 + present (cz c) + present (cm c) /\ coords_measures c = present (cm c)) /\
  (~ nn (cx c) \/ ~ nn (cy c) -> coords_dimension c = 3 /\ coords_measures c = 0).
Proof.
  intros c. unfold coords_dimension, coords_measures, is_xy, is_xym, is_xyzm, present, nn.
  destruct (fis_nan (cx c)), (fis_nan (cy c)), (fis_nan (cz c)), (fis_nan (cm c)); cbn; repeat split; intros; try discriminate; tauto.
Qed.
Theorem C75_kind_tests : forall c,
  (is_xy c = true <-> nn (cx c) /\ nn (cy c) /\ ~ nn (cz c) /\ ~ nn (cm c)) /\
  (is_xym c = true <-> nn (cx c) /\ nn (cy c) /\ ~ nn (cz c) /\ nn (cm c)) /\
  (is_xyzm c = true <-> nn (cx c) /\ nn (cy c) /\ nn (cz c) /\ nn (cm c)).
Proof.
  intros c. unfold is_xy, is_xym, is_xyzm, nn.
  destruct (fis_nan (cx c)), (fis_nan (cy c)), (fis_nan (cz c)), (fis_nan (cm c)); cbn; intuition congruence.
Qed.
(** A created coordinate is at the origin.  It has the dimension and measures
    asked for when these are XY, XYM or XYZM; asking for XYZ gives XY. *)
Theorem C75_create : forall d m, let c := create_dim_measures d m in
  cx c = f0 /\ cy c = f0 /\ (nn (cz c) -> cz c = f0) /\ (nn (cm c) -> cm c = f0) /\
  (In (d, m) [(2, 0); (3, 1); (4, 1)] -> coords_dimension c = d /\ coords_measures c = m) /\
  (~ In (d, m) [(3, 1); (4, 1)] -> coords_dimension c = 2 /\ coords_measures c = 0).
Proof.
  intros d m. cbv zeta. unfold create_dim_measures.
  destruct (Z.eqb_spec d 2) as [->|N2]; [|destruct (Z.eqb_spec d 3) as [->|N3]; [|destruct (Z.eqb_spec d 4) as [->|N4]]]; cbn [andb].
  - repeat split; try discriminate; destruct H as [H|[H|[H|[]]]]; inversion H; reflexivity.
  - destruct (Z.eqb_spec m 0) as [->|M0]; [|destruct (Z.eqb_spec m 1) as [->|M1]]; cbn [andb]; repeat split; try discriminate; try (exfalso; apply H; cbn; tauto);
      destruct H as [H|[H|[H|[]]]]; inversion H; congruence.
  - destruct (Z.eqb_spec m 1) as [->|M1]; repeat split; try discriminate; try (exfalso; apply H; cbn; tauto); destruct H as [H|[H|[H|[]]]]; inversion H; congruence.
  - repeat split; try discriminate; destruct H as [H|[H|[H|[]]]]; inversion H; congruence.
Qed.
(** The coordinate a sequence makes for its callers to fill is of its kind. *)
Theorem C75_sequence_default : forall s, In (sdim s, smeas s) [(2, 0); (3, 1); (4, 1)] ->
  let c := seq_create_default s in
  cx c = f0 /\ cy c = f0 /\ coords_dimension c = sdim s /\ coords_measures c = smeas s.
Proof.
  intros s H. cbv zeta. destruct (C75_create (sdim s) (smeas s)) as (A & B & _ & _ & C & _). destruct (C H). unfold seq_create_default. auto.
Qed.
Theorem C75_create_xyz_refuted : coords_dimension (create_dim_measures 3 0) = 2.
Proof. reflexivity. Qed.

Lemma fold_max (f : Coordinate -> Z) l : forall a,
  a <= fold_left (fun d c => Z.max d (f c)) l a /\ (forall c, In c l -> f c <= fold_left (fun d c => Z.max d (f c)) l a) /\
  (fold_left (fun d c => Z.max d (f c)) l a = a \/ exists c, In c l /\ f c = fold_left (fun d c => Z.max d (f c)) l a).
Proof.
  induction l as [|x l IH]; intros a; cbn [fold_left In]; [repeat split; try lia; tauto|].
  destruct (IH (Z.max a (f x))) as (A & B & C). split; [lia|]. split.
  - intros c [<-|I]; [lia|auto].
  - destruct C as [C|(c & I & C)]; [|right; exists c; auto]. rewrite C. destruct (Z.max_spec a (f x)) as [(_ & E)|(_ & E)]; rewrite E; [right; exists x; auto|auto].
Qed.
Lemma dim_range c : 2 <= coords_dimension c <= 4 /\ 0 <= coords_measures c <= 1.
Proof. unfold coords_dimension, coords_measures. destruct (is_xy c), (is_xym c), (is_xyzm c); lia. Qed.
(** The dimension and measures of an array are the greatest of its members';
    3 and 0 for the empty array. *)
Theorem C75_array : forall l, l <> [] ->
  ((forall c, In c l -> coords_dimension c <= arr_dimension l) /\ exists c, In c l /\ coords_dimension c = arr_dimension l) /\
  ((forall c, In c l -> coords_measures c <= arr_measures l) /\ exists c, In c l /\ coords_measures c = arr_measures l).
Proof.
  intros l N. destruct l as [|x l]; [congruence|]. unfold arr_dimension, arr_measures. split.
  - destruct (fold_max coords_dimension (x :: l) 0) as (A & B & C). split; [exact B|]. destruct C as [C|C]; [|exact C].
    specialize (B x (or_introl eq_refl)). rewrite C in B. pose proof (dim_range x). lia.
  - destruct (fold_max coords_measures (x :: l) 0) as (A & B & C). split; [exact B|]. destruct C as [C|C]; [|exact C].
    exists x. split; [now left|]. specialize (B x (or_introl eq_refl)). rewrite C in *. pose proof (dim_range x). lia.
Qed.
Theorem C75_empty_array : arr_dimension [] = 3 /\ arr_measures [] = 0.
Proof. split; reflexivity. Qed.
(** Enforcing consistency first finds the greatest dimension and measures, and
    whether all coordinates agree on them. *)
Theorem C75_consistency_scan : forall x l, let '(md, mm, ok) := consistency_scan (x :: l) in
  md = arr_dimension (x :: l) /\ mm = arr_measures (x :: l) /\
  (ok = true <-> forall c, In c l -> coords_dimension c = coords_dimension x /\ coords_measures c = coords_measures x).
Proof.
  intros x l. unfold consistency_scan, arr_dimension, arr_measures. cbn [fold_left]. rewrite Z.eqb_refl.
  pose proof (dim_range x) as (D & M). rewrite !(Z.max_r 0) by lia.
  set (step := fun '(md, mm, ok) c => _).
  assert (forall l d m ok, 2 <= d -> 0 <= m -> let '(md, mm, ok') := fold_left step l (d, m, ok) in
    md = fold_left (fun d c => Z.max d (coords_dimension c)) l d /\ mm = fold_left (fun d c => Z.max d (coords_measures c)) l m /\
    (ok' = true <-> ok = true /\ forall c, In c l -> coords_dimension c = d /\ coords_measures c = m)) as G.
  { clear. induction l as [|y l IH]; intros d m ok Hd Hm; cbn [fold_left].
    - repeat split; try tauto; cbn in *; tauto.
    - unfold step at 2. destruct (Z.eqb_spec d (-1)) as [E|_]; [lia|]. pose proof (dim_range y) as (D & M).
      destruct (Z.eqb_spec (coords_dimension y) d) as [E1|E1]; [destruct (Z.eqb_spec (coords_measures y) m) as [E2|E2]|]; cbn [negb orb].
      + specialize (IH d m ok Hd Hm). rewrite E1, E2, !Z.max_id. destruct (fold_left step l (d, m, ok)) as [[md mm] ok']. destruct IH as (A & B & C).
        split; [exact A|]. split; [exact B|]. rewrite C. split; intros (H1 & H2); split; auto.
        * intros c [<-|I]; auto.
        * intros c I. apply H2. now right.
      + specialize (IH (Z.max d (coords_dimension y)) (Z.max m (coords_measures y)) false ltac:(lia) ltac:(lia)).
        destruct (fold_left step l _) as [[md mm] ok']. destruct IH as (A & B & C). rewrite E1 in *. split; [exact A|]. split; [exact B|]. rewrite C. split; intros (H1 & H2); [discriminate|].
        destruct (H2 y (or_introl eq_refl)). congruence.
      + specialize (IH (Z.max d (coords_dimension y)) (Z.max m (coords_measures y)) false ltac:(lia) ltac:(lia)).
        destruct (fold_left step l _) as [[md mm] ok']. destruct IH as (A & B & C). split; [exact A|]. split; [exact B|]. rewrite C. split; intros (H1 & H2); [discriminate|].
        destruct (H2 y (or_introl eq_refl)). congruence. }
  specialize (G l (coords_dimension x) (coords_measures x) true ltac:(lia) ltac:(lia)).
  change (fold_left _ l (coords_dimension x, coords_measures x, true)) with (fold_left step l (coords_dimension x, coords_measures x, true)).
  destruct (fold_left step l _) as [[md mm] ok]. destruct G as (A & B & C). split; [exact A|]. split; [exact B|]. rewrite C. tauto.
Qed.

(** ** Sequences *)
(** The constructors keep the coordinates; dimension and measures are those
    given, or else the array's. *)
Theorem C75_constructors : forall cs d m n,
  (scoords (seq_of cs) = cs /\ sdim (seq_of cs) = arr_dimension cs /\ smeas (seq_of cs) = arr_measures cs) /\
  (scoords (seq_of_dim cs d) = cs /\ sdim (seq_of_dim cs d) = d /\ smeas (seq_of_dim cs d) = arr_measures cs) /\
  (scoords (seq_of_dim_meas cs d m) = cs /\ sdim (seq_of_dim_meas cs d m) = d /\ smeas (seq_of_dim_meas cs d m) = m) /\
  (seq_size (seq_new_size_dim_meas n d m) = n /\ sdim (seq_new_size_dim_meas n d m) = d /\ smeas (seq_new_size_dim_meas n d m) = m /\
   forall c, In c (scoords (seq_new_size_dim_meas n d m)) -> cx c = f0 /\ cy c = f0 /\
     (In (d, m) [(2, 0); (3, 1); (4, 1)] -> coords_dimension c = d /\ coords_measures c = m)).
Proof.
  intros cs d m n. split; [repeat split|]. split; [repeat split|]. split; [repeat split|]. unfold seq_new_size_dim_meas, seq_size. cbn [scoords sdim smeas].
  split; [apply repeat_length|]. split; [reflexivity|]. split; [reflexivity|]. intros c I. apply repeat_spec in I. subst c.
  destruct (C75_create d m) as (A & B & _ & _ & C & _). tauto.
Qed.
(** Z is read exactly when more than two ordinates are not measures, M exactly
    when there is a measure; otherwise NaN. *)
Theorem C75_reading : forall s i c, nth_error (scoords s) i = Some c -> i32_min <= sdim s - smeas s <= i32_max ->
  seq_get_z s i = Ok (if 2 <? sdim s - smeas s then cz c else fnan) /\
  seq_get_m s i = Ok (if 0 <? smeas s then cm c else fnan).
Proof.
  intros s i c E H. unfold seq_get_z, seq_get_m, has_z, has_m, i32_chk.
  replace ((i32_min <=? sdim s - smeas s) && (sdim s - smeas s <=? i32_max)) with true by (symmetry; apply andb_true_iff; lia).
  cbn [bind]. rewrite !Z.gtb_ltb. unfold idx. rewrite E. split.
  - now destruct (2 <? sdim s - smeas s).
  - now destruct (0 <? smeas s).
Qed.
(** A sequence made from coordinates gives back the M of each. *)
Theorem C75_read_back : forall cs i c, nth_error cs i = Some c -> nn (cx c) -> nn (cy c) ->
  seq_get_m (seq_of cs) i = Ok (cm c) \/ (arr_measures cs = 0 /\ ~ nn (cm c)).
Proof.
  intros cs i c E X Y. destruct (dim_range c) as (_ & R). assert (In c cs) as I by (eapply nth_error_In; eauto).
  assert (cs <> []) as N by (intros ->; inversion I). destruct (C75_array cs N) as (_ & B & _). specialize (B c I).
  unfold seq_get_m, has_m. cbn [smeas seq_of scoords]. rewrite Z.gtb_ltb. unfold idx. rewrite E. destruct (Z.ltb_spec 0 (arr_measures cs)); [now left|].
  right. split; [lia|]. destruct (C75_coordinate c) as (C & _). destruct (C X Y) as (_ & C'). rewrite C' in B. unfold present, nn in *.
  destruct (fis_nan (cm c)); [discriminate|lia].
Qed.
(** The factory keeps 2 or 3 spatial ordinates and at most one measure. *)
Theorem C75_factory : forall n d m,
  (seq_size (seq_create n d) = n /\ sdim (seq_create n d) = Z.max 2 (Z.min 3 d) /\ smeas (seq_create n d) = 0) /\
  (forall s, seq_create_meas n d m = Ok s ->
   seq_size s = n /\ smeas s = Z.min m 1 /\ sdim s - smeas s = Z.max 2 (Z.min 3 (d - m)) /\
   forall c, In c (scoords s) -> c = create_dim_measures (sdim s) (smeas s)) /\
  (0 <= d <= 1000 -> 0 <= m <= 1000 -> seq_create_meas n d m <> Panic).
Proof.
  intros n d m. split; [|split].
  - unfold seq_create, seq_new_size_dim, seq_size. cbn [scoords sdim smeas]. rewrite repeat_length, Z.gtb_ltb.
    split; [reflexivity|]. split; [|reflexivity]. destruct (Z.ltb_spec 3 d); [change (3 <? 2) with false; cbv iota; lia|]. destruct (Z.ltb_spec d 2); lia.
  - intros s. unfold seq_create_meas, i32_chk. destruct (_ && _); [|discriminate]. cbn [bind]. rewrite !Z.gtb_ltb.
    set (m' := if 1 <? m then 1 else m). set (sp := if 3 <? d - m then 3 else d - m). destruct (_ && _); [|discriminate]. cbn [bind]. intros E. inversion E.
    unfold seq_new_size_dim_meas, seq_size. cbn [scoords sdim smeas]. rewrite repeat_length. split; [reflexivity|].
    split; [unfold m'; destruct (Z.ltb_spec 1 m); lia|]. split; [|intros c I; now apply repeat_spec in I].
    unfold sp. destruct (Z.ltb_spec 3 (d - m)); [change (3 <? 2) with false; cbv iota; lia|]. destruct (Z.ltb_spec (d - m) 2); lia.
  - intros Hd Hm. unfold seq_create_meas, i32_chk.
    replace ((i32_min <=? d - m) && (d - m <=? i32_max)) with true by (symmetry; apply andb_true_iff; unfold i32_min, i32_max; lia). cbn [bind]. rewrite !Z.gtb_ltb.
    set (m' := if 1 <? m then 1 else m). set (sp := if 3 <? d - m then 3 else d - m). set (sp' := if sp <? 2 then 2 else sp).
    assert (0 <= m' <= 1000) by (unfold m'; destruct (1 <? m); lia).
    assert (2 <= sp' <= 3) by (unfold sp', sp; destruct (Z.ltb_spec 3 (d - m)); [change (3 <? 2) with false; cbv iota; lia|]; destruct (Z.ltb_spec (d - m) 2); lia).
    replace ((i32_min <=? sp' + m') && (sp' + m' <=? i32_max)) with true by (symmetry; apply andb_true_iff; unfold i32_min, i32_max; lia). discriminate.
Qed.
(** Packed sequences: measures are never negative, and count the ordinates
    beyond three. *)
Theorem C75_packed : forall d n, i32_min + 3 <= d <= i32_max ->
  packed_of_coords_dim [] d = Ok (mkPacked d (Z.max 0 (d - 3)) []) /\
  packed_create_from_coords [] = Ok (mkPacked 3 0 []) /\
  (forall p, packed_create n d = Ok p -> pdim p = d /\ pmeas p = Z.max 0 (d - 3) /\ Forall (fun v => v = fnan) (pcoords p) /\
     (0 <= d -> Z.of_nat (length (pcoords p)) = Z.of_nat n * d)).
Proof.
  intros d n H. unfold packed_of_coords_dim, packed_create_from_coords, packed_create, packed_new_size, i32_chk.
  replace ((i32_min <=? d - 3) && (d - 3 <=? i32_max)) with true by (symmetry; apply andb_true_iff; lia). cbn [bind].
  split; [reflexivity|]. split; [reflexivity|]. intros p. unfold usize_chk. destruct (_ && _) eqn:K; [|discriminate]. cbn [bind]. intros E. inversion E.
  cbn [pdim pmeas pcoords]. split; [reflexivity|]. split; [reflexivity|]. split; [apply Forall_forall; intros v I; now apply repeat_spec in I|].
  intros P. rewrite repeat_length, Z2Nat.id by (apply andb_true_iff in K; lia). unfold usize_wrap. rewrite Z.mod_small; [reflexivity|].
  unfold i32_max in H. lia.
Qed.
Example C75_example : coords_dimension (new_xyzm f0 f1 f2 f1) = 4 /\ coords_measures (new_xym f0 f1 f2) = 1 /\
  arr_dimension [new_xy f0 f1; new_xym f1 f1 f2; new_xy f2 f2] = 3 /\
  seq_get_m (seq_of [new_xy f0 f1; new_xym f1 f1 f2]) 1 = Ok f2 /\
  seq_get_z (seq_of [new_xyz f0 f1 f2]) 0 = Ok f2 /\
  (exists s, seq_create_meas 5 9 3 = Ok s /\ sdim s = 4 /\ smeas s = 1 /\ seq_size s = 5%nat).
Proof. repeat split. eexists. repeat split. Qed.
