(** Properties C13-C23: coordinate arrays and lists. *)
From Coq Require Import ZArith Bool List Lia Permutation.
From Verif Require Import Base F64 F64Facts Coordinate_model Coordinate_spec Envelope_model Envelope_spec
  Envelope_proofs Coordinate_proofs CoordArrays_model CoordArrays_spec CoordArrays_proofs.
Import ListNotations.
Open Scope Z_scope.

Local Notation pt a b := (new_xy (fofZ a) (fofZ b)).

(** ** C13 *)
Theorem C13_compare_is_lexicographic : forall l1 l2, Forall nn_xy l1 -> Forall nn_xy l2 ->
  (arr_compare l1 l2 = -1 <-> lex_lt l1 l2) /\ (arr_compare l1 l2 = 1 <-> lex_lt l2 l1) /\
  (arr_compare l1 l2 = 0 <-> same_pts l1 l2).
Proof.
  intros l1 l2 F1 F2. split; [now apply arr_compare_lt|split; [|now apply arr_compare_zero]].
  rewrite <- arr_compare_lt by assumption. rewrite (arr_compare_antisym l1 l2). lia.
Qed.
Theorem C13_compare_total : forall l1 l2,
  arr_compare l1 l2 = -1 \/ arr_compare l1 l2 = 0 \/ arr_compare l1 l2 = 1.
Proof. exact arr_compare_range. Qed.
Theorem C13_compare_antisymmetric : forall l1 l2, arr_compare l2 l1 = - arr_compare l1 l2.
Proof. exact arr_compare_antisym. Qed.
Theorem C13_compare_transitive : forall l1 l2 l3, Forall nn_xy l1 -> Forall nn_xy l2 -> Forall nn_xy l3 ->
  arr_compare l1 l2 <= 0 -> arr_compare l2 l3 <= 0 -> arr_compare l1 l3 <= 0.
Proof. exact arr_compare_trans. Qed.
Theorem C13_equals_is_pointwise : forall l1 l2, arr_equals l1 l2 = true <-> same_pts l1 l2.
Proof. exact arr_equals_spec. Qed.
Example C13_example : Forall nn_xy [pt 1 2; pt 3 4] /\
  arr_compare [pt 1 2] [pt 1 2; pt 3 4] = -1 /\ arr_compare [pt 1 2; pt 3 5] [pt 1 2; pt 3 4; pt 0 0] = 1.
Proof. repeat split; repeat constructor. Qed.

(** ** C14 *)
Theorem C14_remove_repeated_drops_exactly_repeats : forall l, drop_repeats l (remove_repeated_points l).
Proof. exact remove_repeated_spec. Qed.
Theorem C14_remove_repeated_no_adjacent : forall l, no_adjacent_repeat (remove_repeated_points l).
Proof. intros l. eapply drop_repeats_clean, remove_repeated_spec. Qed.
Theorem C14_has_repeated_points_meaning : forall l,
  has_repeated_points l = true <->
  exists i a b, nth_error l i = Some a /\ nth_error l (S i) = Some b /\ pt_eq a b.
Proof.
  intros l. split.
  - induction l as [|a [|b l] IH]; cbn [has_repeated_points]; try discriminate.
    destruct (equals_2d a b) eqn:E.
    + intros _. exists 0%nat, a, b. apply equals_2d_eq in E. auto.
    + intros H. destruct (IH H) as (i & x & y & A & B & C). exists (S i), x, y. auto.
  - intros (i & a & b & A & B & C). destruct (has_repeated_points l) eqn:E; auto.
    apply has_repeated_spec in E. now destruct (E i a b).
Qed.
Theorem C14_remove_repeated_idempotent : forall l,
  remove_repeated_points (remove_repeated_points l) = remove_repeated_points l.
Proof.
  intros l. unfold remove_repeated_points at 1.
  replace (has_repeated_points (remove_repeated_points l)) with false; [reflexivity|].
  symmetry. apply has_repeated_spec. apply C14_remove_repeated_no_adjacent.
Qed.
Theorem C14_unchanged_without_repeats : forall l, no_adjacent_repeat l -> remove_repeated_points l = l.
Proof.
  intros l H. eapply drop_repeats_fun. apply remove_repeated_spec. now apply drop_repeats_none.
Qed.
Example C14_example : arr_equals (remove_repeated_points [pt 1 1; pt 1 1; pt 2 1; pt 1 1; pt 1 1])
  [pt 1 1; pt 2 1; pt 1 1] = true.
Proof. reflexivity. Qed.

(** ** C15 *)
(** The result is the valid points without repeats, except when the first
    point is the only defect. *)
Theorem C15_remove_invalid_spec : forall l,
  (has_repeated_or_invalid_points l = true \/ (forall a, hd_error l = Some a -> valid_pt a)) ->
  drop_repeats (filter coord_is_valid l) (remove_repeated_or_invalid_points l).
Proof. intros l H. destruct (remove_roi_spec l H) as (m & -> & D). exact D. Qed.
Theorem C15_coord_is_valid_meaning : forall c, coord_is_valid c = true <-> valid_pt c.
Proof. exact valid_spec. Qed.
Theorem C15_invalid_survives_iff : forall l,
  (exists p, In p (remove_repeated_or_invalid_points l) /\ ~ valid_pt p) <->
  (exists p t, l = p :: t /\ ~ valid_pt p /\ Forall valid_pt t /\ no_adjacent_repeat l).
Proof. exact remove_roi_invalid. Qed.
Theorem C15_no_adjacent_repeats : forall l, no_adjacent_repeat (remove_repeated_or_invalid_points l).
Proof.
  intros l. destruct (has_repeated_or_invalid_points l) eqn:E.
  - destruct (remove_roi_spec l (or_introl E)) as (m & _ & D). eapply drop_repeats_clean; eauto.
  - unfold remove_repeated_or_invalid_points. rewrite E. now apply has_roi_spec in E.
Qed.
Theorem C15_all_valid_refuted : exists l p, In p (remove_repeated_or_invalid_points l) /\ ~ valid_pt p.
Proof.
  exists [new_xy fnan f0; pt 1 1], (new_xy fnan f0). split; [now left|]. intros [H _]. discriminate.
Qed.
Example C15_example : arr_equals (remove_repeated_or_invalid_points [new_xy finf f0; pt 1 1; pt 1 1; new_xy f0 fnan; pt 1 1; pt 2 2])
  [pt 1 1; pt 2 2] = true /\
  has_repeated_or_invalid_points [new_xy finf f0; pt 1 1; pt 1 1; new_xy f0 fnan; pt 1 1; pt 2 2] = true.
Proof. split; reflexivity. Qed.

(** ** C16 *)
Theorem C16_backward_array_is_reverse : forall v, to_coordinate_array_forward v false = Ok (rev v).
Proof. exact to_array_reverse. Qed.
Theorem C16_reverse_twice : forall v w, to_coordinate_array_forward v false = Ok w ->
  to_coordinate_array_forward w false = Ok v.
Proof. intros v w. rewrite !to_array_reverse. intros H; inversion H; subst. now rewrite rev_involutive. Qed.
Theorem C16_is_equal_reversed_meaning : forall p1 p2, length p1 = length p2 ->
  Forall nn_xy p1 -> Forall nn_xy p2 ->
  exists b, is_equal_reversed p1 p2 = Ok b /\ (b = true <-> same_pts p1 (rev p2)).
Proof. exact is_equal_reversed_spec. Qed.
Theorem C16_is_equal_reversed_panics_if_shorter : forall p1 p2,
  (length p2 < length p1)%nat -> is_equal_reversed p1 p2 = Panic.
Proof. exact is_equal_reversed_panic. Qed.
Theorem C16_copies_are_exact : forall cs, copy_deep cs = Ok cs.
Proof. exact copy_deep_spec. Qed.
Theorem C16_copy_range : forall src s dest d len,
  (s + len <= length src)%nat -> (d + len <= length dest)%nat ->
  copy_deep_to src s dest d len = Ok (firstn d dest ++ firstn len (skipn s src) ++ skipn (d + len) dest).
Proof. exact copy_deep_to_spec. Qed.
Example C16_example : to_coordinate_array_forward [pt 1 1; pt 2 2; pt 3 3] false = Ok [pt 3 3; pt 2 2; pt 1 1]
  /\ is_equal_reversed [pt 1 1; pt 2 2; pt 3 3] [pt 3 3; pt 2 2; pt 1 1] = Ok true
  /\ is_equal_reversed [pt 1 1; pt 2 2] [pt 1 1; pt 2 2] = Ok false.
Proof. repeat split. Qed.

(** ** C17 *)
Theorem C17_scroll_is_rotation : forall cs i, (i <= length cs)%nat ->
  scroll_index_ensure_ring cs i false = Ok (rotation i cs).
Proof. exact scroll_open. Qed.
Theorem C17_scroll_permutation : forall cs i r, scroll_index_ensure_ring cs i false = Ok r -> Permutation cs r.
Proof.
  intros cs i r H. destruct (Nat.le_gt_cases i (length cs)) as [L|L].
  - rewrite scroll_open in H by assumption. inversion H. apply rotation_perm.
  - rewrite scroll_open_panic in H by assumption. discriminate.
Qed.
Theorem C17_scroll_out_of_range_panics : forall cs i, (length cs < i)%nat ->
  scroll_index_ensure_ring cs i false = Panic.
Proof. exact scroll_open_panic. Qed.
(** A ring is its vertices plus the closing point; the scrolled ring is the
    rotated vertices closed with their new first vertex. *)
Theorem C17_scroll_ring_rotates_vertices : forall vertices p i, (0 < i)%nat -> vertices <> [] ->
  exists k v0, (k = i mod length vertices)%nat /\ nth_error vertices k = Some v0 /\
  scroll_index_ensure_ring (vertices ++ [p]) i true = Ok (rotation k vertices ++ [v0]).
Proof.
  intros vs p i Hi NE. exists (i mod length vs)%nat, (nth (i mod length vs) vs coord_default).
  assert (length vs <> 0)%nat by (destruct vs; cbn; [congruence|lia]).
  split; [reflexivity|]. split.
  - apply nth_error_nth'. now apply Nat.mod_upper_bound.
  - now apply scroll_ring.
Qed.
Theorem C17_scrolled_ring_is_closed : forall vertices p i r, (0 < i)%nat -> vertices <> [] ->
  Forall nn_xy vertices -> scroll_index_ensure_ring (vertices ++ [p]) i true = Ok r -> closed r.
Proof.
  intros vs p i r Hi NE F H. rewrite scroll_ring in H by assumption. inversion H; subst r; clear H.
  assert (length vs <> 0)%nat by (destruct vs; cbn; [congruence|lia]).
  set (k := (i mod length vs)%nat). assert (k < length vs)%nat by now apply Nat.mod_upper_bound.
  exists (nth k vs coord_default), (nth k vs coord_default). split.
  - pose proof (rotation_hd k vs coord_default H0) as R. destruct (rotation k vs); [discriminate|]. exact R.
  - rewrite rev_app_distr. split; [reflexivity|]. apply pt_eq_refl.
    rewrite Forall_forall in F. apply F. now apply nth_In.
Qed.
Theorem C17_scroll_to_coordinate : forall cs first r, scroll_coordinate cs first = Ok r ->
  (exists p, In p cs /\ pt_eq p first) -> exists p, hd_error r = Some p /\ pt_eq p first.
Proof.
  intros cs first r. unfold scroll_coordinate.
  assert (forall l, match position (fun r => equals_2d r first) l with
     | Some i => (i < length l)%nat /\ pt_eq (nth i l coord_default) first
     | None => forall p, In p l -> ~ pt_eq p first end) as P.
  { induction l as [|a l IH]; cbn [position]; [intros ? []|].
    destruct (equals_2d a first) eqn:E.
    - split; [cbn; lia|]. now apply equals_2d_eq.
    - apply equals_2d_false in E. destruct (position _ l) as [i|]; cbn [option_map].
      + destruct IH. split; [cbn; lia|]. assumption.
      + intros p [<-|I]; auto. }
  specialize (P cs). destruct (position _ cs) as [i|]; [|intros _ (p & I & Q); exfalso; eapply P; eauto].
  destruct P as [Hi Q]. intros H _. unfold scroll_index in H.
  destruct (arr_is_ring_spec cs) as (b & Eb & Hb). rewrite Eb in H. cbn [bind] in H.
  destruct (Nat.eq_dec i 0) as [->|NZ].
  { rewrite scroll_ring_zero in H. inversion H; subst r. exists (nth 0 cs coord_default). split; auto.
    destruct cs; [cbn in *; lia|reflexivity]. }
  destruct b.
  - destruct (last_cases cs) as [->|(w & z & ->)]; [cbn in *; lia|].
    destruct Hb as [Hb _]. specialize (Hb eq_refl). destruct Hb as [L4 (a & b & A & B & C)].
    rewrite app_length in *. cbn [length] in *.
    assert (w <> []) by (destruct w; cbn in *; [lia|discriminate]).
    rewrite scroll_ring in H by (auto; lia). inversion H; subst r; clear H.
    set (k := (i mod length w)%nat). assert (k < length w)%nat as Hk by (apply Nat.mod_upper_bound; lia).
    exists (nth k w coord_default). split.
    + pose proof (rotation_hd k w coord_default Hk) as R. destruct (rotation k w); [discriminate|]. exact R.
    + destruct (Nat.eq_dec i (length w)) as [->|NE].
      * unfold k. rewrite Nat.mod_same by lia.
        rewrite app_nth2, Nat.sub_diag in Q by lia. cbn in Q.
        rewrite rev_app_distr in B. cbn in B. inversion B; subst b.
        destruct w as [|w0 w]; [congruence|]. cbn in A |- *. inversion A; subst a.
        eapply pt_eq_trans; eauto.
      * unfold k. rewrite Nat.mod_small by lia. rewrite app_nth1 in Q by lia. exact Q.
  - rewrite scroll_open in H by lia. inversion H; subst r. exists (nth i cs coord_default).
    split; [now apply rotation_hd|assumption].
Qed.
(** A one-point array with [ensure_ring] loses its point. *)
Theorem C17_scroll_single_point_refuted : scroll_index_ensure_ring [pt 5 7] 1 true = Ok [coord_default].
Proof. reflexivity. Qed.
Example C17_example :
  scroll_index [pt 0 0; pt 1 0; pt 1 1; pt 0 1; pt 0 0] 2 = Ok [pt 1 1; pt 0 1; pt 0 0; pt 1 0; pt 1 1] /\
  scroll_index [pt 0 0; pt 1 0; pt 1 1] 2 = Ok [pt 1 1; pt 0 0; pt 1 0] /\
  scroll_coordinate [pt 0 0; pt 1 0; pt 1 1] (pt 1 0) = Ok [pt 1 0; pt 1 1; pt 0 0].
Proof. repeat split. Qed.

(** ** C18 *)
Theorem C18_direction_is_sign : forall pts, increasing_direction pts = Ok 1 \/ increasing_direction pts = Ok (-1).
Proof.
  intros pts. rewrite increasing_direction_spec. cbv zeta.
  destruct (arr_compare_range pts (rev pts)) as [->|[-> | ->]]; cbn; auto.
Qed.
Theorem C18_direction_reversed : forall pts d, Forall nn_xy pts -> ~ palindrome pts ->
  increasing_direction pts = Ok d -> increasing_direction (rev pts) = Ok (- d).
Proof.
  intros pts d F NP. rewrite !increasing_direction_spec, rev_involutive. cbv zeta.
  rewrite <- palindrome_zero in NP by assumption. rewrite (arr_compare_antisym pts (rev pts)).
  destruct (Z.eqb_spec (arr_compare pts (rev pts)) 0); [contradiction|].
  destruct (Z.eqb_spec (- arr_compare pts (rev pts)) 0); [lia|]. congruence.
Qed.
Theorem C18_direction_palindrome : forall pts, Forall nn_xy pts -> palindrome pts ->
  increasing_direction pts = Ok 1.
Proof.
  intros pts F P. apply palindrome_zero in P; auto. rewrite increasing_direction_spec, P. reflexivity.
Qed.
Theorem C18_direction_minus_one_iff : forall pts, Forall nn_xy pts ->
  (increasing_direction pts = Ok (-1) <-> lex_lt pts (rev pts)).
Proof.
  intros pts F. rewrite increasing_direction_spec. cbv zeta.
  rewrite <- arr_compare_lt by (auto; now apply Forall_rev).
  destruct (arr_compare_range pts (rev pts)) as [->|[-> | ->]]; cbn; split; congruence.
Qed.
Example C18_example : increasing_direction [pt 0 0; pt 5 5; pt 0 1] = Ok (-1) /\
  increasing_direction [pt 0 1; pt 5 5; pt 0 0] = Ok 1 /\ increasing_direction [pt 0 0; pt 1 1; pt 0 0] = Ok 1.
Proof. repeat split. Qed.

(** ** C19: extract is unusable *)
Theorem C19_extract_never_returns_points : forall u pts s e r, extract_by u pts s e = Ok r -> r = [].
Proof. exact extract_by_only_empty. Qed.
(** The lower 32 bits as a signed number. *)
Definition low32 (z : Z) : Z := (z + 2 ^ 31) mod 2 ^ 32 - 2 ^ 31.
(** What is returned, with overflow checks and without, in terms of the ends cut
    to their lower 32 bits and then to [0, n] and [-1, n]. *)
Theorem C19_extract_outcome : forall pts s0 e0, Z.of_nat (length pts) <= 2147483647 ->
  let n := Z.of_nat (length pts) in
  let s := Z.max 0 (Z.min (low32 s0) n) in
  let e := Z.max (-1) (Z.min (low32 e0) n) in
  (extract pts s0 e0 = Ok [] <-> e = s \/ (e = -1 /\ s = n /\ 0 < n)) /\
  (extract pts s0 e0 = Panic <-> ~ (e = s \/ (e = -1 /\ s = n /\ 0 < n))) /\
  (extract_by (fun z => Ok (usize_wrap z)) pts s0 e0 = Ok [] <-> s = n \/ (0 <= e <= s) \/ (e = -1 /\ s = 0)) /\
  (extract_by (fun z => Ok (usize_wrap z)) pts s0 e0 = Panic <-> ~ (s = n \/ (0 <= e <= s) \/ (e = -1 /\ s = 0))).
Proof.
  intros pts s0 e0 L n s e. unfold extract. rewrite extract_chk, extract_wrap by exact L. cbv zeta.
  change (i32_wrap s0) with (low32 s0). change (i32_wrap e0) with (low32 e0). fold n. fold s. fold e.
  assert (X : forall b (P : Prop), (b = true <-> P) ->
    ((if b then Ok [] else Panic) = Ok (@nil Coordinate) <-> P) /\ ((if b then Ok [] else Panic) = @Panic (list Coordinate) <-> ~ P)).
  { intros b P [H1 H2]. destruct b; split; split; intros Q; try congruence; auto.
    - exfalso. auto.
    - now apply H2 in Q.
    - intros R. now apply H2 in R. }
  match goal with |- context [if ?b then _ else _] => destruct (X b (e = s \/ (e = -1 /\ s = n /\ 0 < n))) as [A B] end.
  { rewrite orb_true_iff, !andb_true_iff, !Z.eqb_eq, Z.ltb_lt. tauto. }
  split; [exact A|]. split; [exact B|].
  apply X. rewrite !orb_true_iff, !andb_true_iff, !Z.eqb_eq, !Z.leb_le. tauto.
Qed.
(** A part of at least one point never comes out: the call panics. *)
Theorem C19_extract_panics_refuted : forall pts s e, Z.of_nat (length pts) <= 2147483647 ->
  0 <= s -> s < e -> e <= Z.of_nat (length pts) ->
  extract pts s e = Panic /\ extract_by (fun z => Ok (usize_wrap z)) pts s e = Panic.
Proof.
  intros pts s e L Hs Hse He. destruct (C19_extract_outcome pts s e L) as (_ & A & _ & B). unfold low32 in A, B.
  rewrite !(Z.mod_small (_ + 2 ^ 31)) in A, B by lia. split; [apply A|apply B]; lia.
Qed.
Example C19_example : extract [pt 0 0; pt 1 1; pt 2 2] 0 1 = Panic /\ extract [pt 0 0; pt 1 1; pt 2 2] 1 1 = Ok [] /\
  extract [pt 0 0; pt 1 1; pt 2 2] 2 1 = Panic /\
  extract_by (fun z => Ok (usize_wrap z)) [pt 0 0; pt 1 1; pt 2 2] 2 1 = Ok [] /\ extract [] 0 18446744073709551614 = Panic.
Proof. repeat split; reflexivity. Qed.

(** ** C20 *)
Theorem C20_consistency_keeps_xyz : forall a d m,
  map (fun c => (cx c, cy c, cz c)) (enforce_consistency_dim_measures a d m) =
  map (fun c => (cx c, cy c, cz c)) a /\
  map (fun c => (cx c, cy c, cz c)) (enforce_consistency a) = map (fun c => (cx c, cy c, cz c)) a.
Proof.
  intros a d m. split.
  - unfold enforce_consistency_dim_measures. rewrite map_map. reflexivity.
  - unfold enforce_consistency. destruct (consistency_scan a) as [[md mm] []]; cbn [negb]; [reflexivity|].
    rewrite map_map. reflexivity.
Qed.
(** M of every point is replaced by the template's: 0 or NaN. *)
Theorem C20_consistency_loses_m : forall a d m c,
  In c (enforce_consistency_dim_measures a d m) ->
  cm c = if (Z.eqb m 1 && (Z.eqb d 3 || Z.eqb d 4))%bool then f0 else fnan.
Proof.
  intros a d m c I. unfold enforce_consistency_dim_measures in I. apply in_map_iff in I.
  destruct I as (x & <- & _). unfold create_dim_measures, set_coordinate.
  destruct (Z.eqb_spec d 2), (Z.eqb_spec d 3), (Z.eqb_spec d 4), (Z.eqb_spec m 0), (Z.eqb_spec m 1);
    try lia; reflexivity.
Qed.
Theorem C20_consistency_keeps_m_refuted : exists a d m c,
  In c a /\ cm c = fofZ 5 /\ forall c', In c' (enforce_consistency_dim_measures a d m) -> cm c' = f0.
Proof.
  exists [new_xym f0 f1 (fofZ 5)], 3, 1, (new_xym f0 f1 (fofZ 5)). split; [now left|]. split; [reflexivity|].
  intros c' [<-|[]]. reflexivity.
Qed.
Theorem C20_consistent_array_unchanged : forall a d m,
  (forall c, In c a -> coords_dimension c = d /\ coords_measures c = m) -> enforce_consistency a = a.
Proof.
  intros a d m H. unfold enforce_consistency, consistency_scan.
  match goal with |- context [fold_left ?f a _] => set (g := f) end.
  assert (forall l md mm, (forall c, In c l -> In c a) -> (md = -1 \/ (md = d /\ mm = m)) ->
    exists md' mm', fold_left g l (md, mm, true) = (md', mm', true)) as P.
  { induction l as [|c l IH]; intros md mm Hl Hm; cbn [fold_left]; [eauto|].
    destruct (H c) as [Hd Hme]; [apply Hl; now left|].
    unfold g at 2. rewrite Hd, Hme.
    assert (forall c, In c l -> In c a) by (intros; apply Hl; now right).
    destruct (Z.eqb_spec md (-1)); [apply IH; auto|].
    destruct Hm as [|[-> ->]]; [contradiction|]. rewrite !Z.eqb_refl. cbn. apply IH; auto. }
  destruct (P a (-1) (-1)) as (md' & mm' & E); auto. rewrite E. reflexivity.
Qed.
(** Enforcing consistency does not make the dimensions agree. *)
Theorem C20_consistency_achieved_refuted : exists a,
  map coords_dimension (enforce_consistency a) = [2; 3].
Proof. exists [pt 1 2; new_xyz f1 f2 f2]. reflexivity. Qed.
Example C20_example : map cm (enforce_consistency [new_xym f1 f1 f2; pt 0 0]) = [f0; f0].
Proof. reflexivity. Qed.

(** ** C21 *)
Theorem C21_min_coordinate : forall cs, Forall nn_xy cs ->
  match min_coordinate cs with
  | None => cs = []
  | Some m => In m cs /\ forall p, In p cs -> ~ pt_lt p m
  end.
Proof. exact min_coordinate_spec. Qed.
Theorem C21_index_of : forall c l, Z.of_nat (length l) <= 2147483648 ->
  (index_of c l = -1 /\ forall p, In p l -> ~ pt_eq c p) \/
  (exists k p, index_of c l = Z.of_nat k /\ nth_error l k = Some p /\ pt_eq c p /\
     forall j q, (j < k)%nat -> nth_error l j = Some q -> ~ pt_eq c q).
Proof. intros c l H. apply index_of_from_spec; lia. Qed.
Theorem C21_pt_not_in_list : forall t pts, Z.of_nat (length pts) <= 2147483648 ->
  match pt_not_in_list t pts with
  | None => forall p, In p t -> exists q, In q pts /\ pt_eq p q
  | Some p => In p t /\ forall q, In q pts -> ~ pt_eq p q
  end.
Proof. exact pt_not_in_list_spec. Qed.
Theorem C21_intersection_keeps_points_in_box : forall cs env c, wf_env env -> Forall nn_xy cs ->
  (In c (arr_intersection cs env) <-> In c cs /\ in_box env (cx c) (cy c)).
Proof.
  intros cs env c W F. rewrite arr_intersection_spec, filter_In.
  split; intros [I H]; split; auto; (rewrite Forall_forall in F; destruct (F c I) as [Nx Ny]).
  - apply covers_xy_spec; auto. now rewrite <- intersects_xy_spec.
  - rewrite intersects_xy_spec by auto. now apply covers_xy_spec.
Qed.
Theorem C21_intersection_keeps_order : forall cs env,
  arr_intersection cs env = filter (fun c => intersects_xy env (cx c) (cy c)) cs.
Proof. exact arr_intersection_spec. Qed.
Theorem C21_envelope_is_smallest_box : forall cs, Forall nn_xy cs ->
  (forall p, In p cs -> in_box (envelope_of cs) (cx p) (cy p)) /\
  (forall b, wf_env b -> (forall p, In p cs -> in_box b (cx p) (cy p)) -> subset (envelope_of cs) b).
Proof.
  intros cs F. split; [intros p I; now apply envelope_of_covers|].
  intros b W H. apply envelope_of_least; auto. now apply Forall_forall.
Qed.
Theorem C21_at_least_n : forall n l, (n <= length l -> at_least_n_coordinates_or_nothing n l = l)%nat /\
  (length l < n -> at_least_n_coordinates_or_nothing n l = [])%nat.
Proof.
  intros n l. unfold at_least_n_coordinates_or_nothing. destruct (Nat.leb_spec n (length l)); split; intros; auto; lia.
Qed.
Example C21_example : min_coordinate [pt 3 3; pt 1 9; pt 1 2; pt 4 0] = Some (pt 1 2) /\
  index_of (pt 1 2) [pt 3 3; pt 1 9; pt 1 2; pt 4 0] = 2 /\
  pt_not_in_list [pt 1 1; pt 5 5] [pt 1 1; pt 2 2] = Some (pt 5 5).
Proof. repeat split. Qed.

(** ** C22 *)
Theorem C22_histories_never_repeat : forall ops v, apply_list_ops [] ops = Ok v -> no_adjacent_repeat v.
Proof. intros ops v. apply list_ops_clean. apply no_adjacent_nil. Qed.
Theorem C22_add_without_repeats_drops_exactly_repeats : forall cl,
  drop_repeats cl (list_new_with_repeated cl false).
Proof. exact list_new_dedup. Qed.
Theorem C22_add_allowing_repeats_appends : forall v cl, add_coordinate_list_repeated v cl true = v ++ cl.
Proof. exact add_list_true. Qed.
Theorem C22_close_ring : forall a t, nn_xy a ->
  closed (list_close_ring (a :: t)) /\
  (list_close_ring (a :: t) = a :: t \/ list_close_ring (a :: t) = (a :: t) ++ [a]).
Proof. intros a t N. now apply close_ring_closed with t. Qed.
Theorem C22_insert_allowed_positions : forall v i c r,
  (add_index_coordinate_repeated v i c true = Ok r <->
   (i <= length v)%nat /\ r = firstn i v ++ c :: skipn i v).
Proof.
  intros v i c r. unfold add_index_coordinate_repeated, vec_insert. cbn [negb andb].
  destruct (Nat.leb_spec i (length v)); split.
  - intros E; inversion E; auto.
  - intros [_ ->]. reflexivity.
  - discriminate.
  - lia.
Qed.
Theorem C22_insert_unless_adjacent_equal : forall v i c, (i <= length v)%nat -> v <> [] ->
  let prev_eq := exists a, (0 < i)%nat /\ nth_error v (i - 1) = Some a /\ pt_eq a c in
  let next_eq := exists a, nth_error v i = Some a /\ pt_eq a c in
  ((prev_eq \/ next_eq) -> add_index_coordinate_repeated v i c false = Ok v) /\
  (~ prev_eq -> ~ next_eq -> add_index_coordinate_repeated v i c false = Ok (firstn i v ++ c :: skipn i v)).
Proof.
  intros v i c Hi NE pe ne. unfold add_index_coordinate_repeated. cbn [negb andb].
  destruct (Nat.ltb_spec 0 (length v)); [|destruct v; [congruence|cbn in *; lia]]. cbn [andb].
  split.
  - intros [(a & P & N & E)|(a & N & E)]; apply equals_2d_eq in E.
    + destruct (Nat.ltb_spec 0 i); [|lia]. rewrite N, E. reflexivity.
    + assert (i < length v)%nat by (apply nth_error_Some; congruence).
      destruct (Nat.ltb_spec i (length v)); [|lia]. rewrite N, E. rewrite orb_true_r. reflexivity.
  - intros NP NN.
    assert ((if Nat.ltb 0 i then match nth_error v (i - 1) with Some prev => equals_2d prev c | None => false end else false) = false) as ->.
    { destruct (Nat.ltb_spec 0 i); auto. destruct (nth_error v (i - 1)) as [a|] eqn:N; auto.
      apply equals_2d_false. intros E. apply NP. exists a. auto. }
    assert ((if Nat.ltb i (length v) then match nth_error v i with Some next => equals_2d next c | None => false end else false) = false) as ->.
    { destruct (Nat.ltb_spec i (length v)); auto. destruct (nth_error v i) as [a|] eqn:N; auto.
      apply equals_2d_false. intros E. apply NN. exists a. auto. }
    cbn. unfold vec_insert. destruct (Nat.leb_spec i (length v)); [reflexivity|lia].
Qed.
Example C22_example : exists v,
  apply_list_ops [] [LAppend (pt 0 0); LAppend (pt 0 0); LAddAll [pt 1 1; pt 1 1; pt 2 0]; LInsert 1 (pt 9 9); LInsert 1 (pt 0 0); LClose] = Ok v
  /\ arr_equals v [pt 0 0; pt 9 9; pt 1 1; pt 2 0; pt 0 0] = true.
Proof. eexists. split; reflexivity. Qed.

(** ** C23 *)
Theorem C23_add_backward_panics_refuted : forall v cl rep,
  add_coordinate_list_repeated_direction v cl rep false = Panic.
Proof. exact add_backward_panics. Qed.
Theorem C23_add_forward_appends : forall v cl,
  add_coordinate_list_repeated_direction v cl true true = Ok (v ++ cl).
Proof. intros v cl. cbn. f_equal. apply add_list_true. Qed.
(** Range additions: ascending ranges work; descending ones work only in a
    build without overflow checks. *)
Theorem C23_add_range_ascending : forall checked fuel v cl rep s e,
  (s <= e)%nat -> (e <= length cl)%nat -> (e - s <= fuel)%nat ->
  add_coordinate_list_repeated_start_end checked fuel v cl rep s e =
  Some (Ok (add_coordinate_list_repeated v (firstn (e - s) (skipn s cl)) rep)).
Proof.
  intros ck fuel v cl rep s e H1 H2 H3. unfold add_coordinate_list_repeated_start_end.
  destruct (Nat.ltb_spec e s); [lia|]. now apply add_start_end_up.
Qed.
Theorem C23_add_range_descending_release : forall fuel v cl s e,
  (e < s)%nat -> (s < length cl)%nat -> (s - e <= fuel)%nat ->
  add_coordinate_list_repeated_start_end false fuel v cl true s e =
  Some (Ok (v ++ rev (firstn (s - e) (skipn (S e) cl)))).
Proof.
  intros fuel v cl s e H1 H2 H3. unfold add_coordinate_list_repeated_start_end.
  destruct (Nat.ltb_spec e s); [|lia]. now apply add_start_end_down_unchecked.
Qed.
Theorem C23_add_range_descending_debug_refuted : forall fuel v cl rep s e, (e < s)%nat -> (1 <= fuel)%nat ->
  add_coordinate_list_repeated_start_end true fuel v cl rep s e = Some Panic.
Proof.
  intros fuel v cl rep s e H F. unfold add_coordinate_list_repeated_start_end.
  destruct (Nat.ltb_spec e s); [|lia]. now apply add_start_end_down_checked.
Qed.
Example C23_example :
  add_coordinate_list_repeated_start_end false 9 [] [pt 0 0; pt 1 1; pt 2 2; pt 3 3] true 3 0 = Some (Ok [pt 3 3; pt 2 2; pt 1 1]) /\
  add_coordinate_list_repeated_start_end true 9 [] [pt 0 0; pt 1 1; pt 2 2; pt 3 3] true 1 3 = Some (Ok [pt 1 1; pt 2 2]).
Proof. split; reflexivity. Qed.
