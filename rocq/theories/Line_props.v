(** C67: line strings and linear rings (line_string.rs, linear_ring.rs). *)
From Coq Require Import ZArith Bool List Lia.
From Verif Require Import Base F64 F64Facts Coordinate_model Coordinate_spec Coordinate_proofs Envelope_model Envelope_spec Envelope_proofs
  CoordArrays_model CoordArrays_spec CoordArrays_proofs CoordSeq_model CoordSeq_spec CoordSeq_proofs CoordSeq_props
  PrecisionModel_model Measure_model Geom_model Geom_proofs.
Import ListNotations.
Open Scope nat_scope.

(** The points of a line string and of a ring. *)
Definition lpts (l : GLine) : list Coordinate := scoords (ln_seq l).
Definition rpts (r : GRing) : list Coordinate := scoords (rg_seq r).
(** A point with only X and Y. *)
Definition xy (x y : Z) : Coordinate := mkC (fofZ x) (fofZ y) fnan fnan.

(** ** Construction and access *)
(** A new line or ring has exactly the given points; no length is refused. *)
Theorem C67_new : forall cs,
  (exists l, create_line cs = Ok l /\ lpts l = cs /\ ln_coordinates l = cs /\ ln_num_points l = length cs /\ ln_env l = None) /\
  (exists r, rg_of cs = Ok r /\ rpts r = cs /\ rg_coordinates r = cs /\ rg_num_points r = length cs /\ rg_env r = None).
Proof.
  intros cs. split.
  - unfold create_line. rewrite create_line_id. eexists. repeat split.
  - unfold rg_of. rewrite rg_of_seq_id. eexists. repeat split.
Qed.
(** Start and end point are the first and the last point, and absent for an
    empty line. *)
Theorem C67_end_points : forall l,
  (lpts l = [] -> ln_start_point l = Ok None /\ ln_end_point l = Ok None /\ ln_coordinate l = Ok None) /\
  (forall a m b, lpts l = a :: m -> last (a :: m) a = b -> exists p q,
     ln_start_point l = Ok (Some p) /\ pt_coordinate p = Ok (Some a) /\
     ln_end_point l = Ok (Some q) /\ pt_coordinate q = Ok (Some b) /\ ln_coordinate l = Ok (Some a)).
Proof.
  intros l. unfold lpts. split.
  - intros E. unfold ln_start_point, ln_end_point, ln_coordinate, ln_is_empty, seq_size. rewrite E. auto.
  - intros a m b E Lb. assert (ln_is_empty l = false) as NE by (unfold ln_is_empty, seq_size; now rewrite E).
    assert (forall i c, nth_error (a :: m) i = Some c -> ln_point_n l i = Ok (mkPt (seq_of [c]) None None)) as PN.
    { intros i c H. unfold ln_point_n, seq_coord, idx. rewrite E, H. cbn [bind]. apply create_point_id. }
    eexists _, _. unfold ln_start_point, ln_end_point, ln_coordinate. rewrite NE.
    rewrite (PN 0 a eq_refl). cbn [bind]. split; [reflexivity|]. split; [reflexivity|].
    unfold ln_num_points, seq_size. rewrite E, usub_ok by (cbn; lia). cbn [bind].
    rewrite (PN (length (a :: m) - 1) b). { cbn [bind]. split; [reflexivity|]. split; [reflexivity|]. unfold seq_coord, idx. now rewrite E. }
    rewrite <- Lb. clear. revert a. induction m as [|x m IH]; intros a; [reflexivity|].
    specialize (IH x). cbn [length] in *. replace (S (S (length m)) - 1) with (S (length m)) by lia. cbn [nth_error]. replace (S (length m) - 1) with (length m) in IH by lia.
    rewrite IH. f_equal. clear. revert a x. induction m as [|y m IH]; intros a x; [reflexivity|]. cbn [last] in *. destruct m; [reflexivity|]. apply (IH a x).
Qed.
(** ** Closed lines *)
Theorem C67_is_closed : forall l, exists b, ln_is_closed l = Ok b /\ (b = true <-> closed (lpts l)) /\
  ln_boundary_dimension l = Ok (if b then -1 else 0)%Z.
Proof.
  intros l. unfold ln_boundary_dimension, ln_is_closed, ln_is_empty, ln_coordinate_n, ln_num_points, seq_size, seq_coord. fold (lpts l).
  destruct (lpts l) as [|a m] eqn:E.
  - exists false. split; [reflexivity|]. split; [|reflexivity]. split; [discriminate|]. intros (x & y & H & _). discriminate.
  - rewrite <- E. assert (lpts l <> []) as N by congruence. assert (0 < length (lpts l)) by (rewrite E; cbn; lia).
    destruct (Nat.eqb_spec (length (lpts l)) 0); [lia|]. rewrite (idx_nth _ 0 coord_default) by lia. cbn [bind].
    rewrite usub_ok by lia. cbn [bind]. rewrite (idx_nth _ _ coord_default) by lia. cbn [bind].
    eexists. split; [reflexivity|]. split; [now apply closed_test|reflexivity].
Qed.
Theorem C67_ring_is_closed : forall r, exists b, rg_is_closed r = Ok b /\ (b = true <-> rpts r = [] \/ closed (rpts r)).
Proof.
  intros r. unfold rg_is_closed, rg_is_empty, rg_coordinate_n, rg_num_points, seq_size, seq_coord. fold (rpts r).
  destruct (rpts r) as [|a m] eqn:E.
  - exists true. split; [reflexivity|]. split; auto.
  - rewrite <- E. assert (rpts r <> []) as N by congruence. assert (0 < length (rpts r)) by (rewrite E; cbn; lia).
    destruct (Nat.eqb_spec (length (rpts r)) 0); [lia|]. rewrite (idx_nth _ 0 coord_default) by lia. cbn [bind].
    rewrite usub_ok by lia. cbn [bind]. rewrite (idx_nth _ _ coord_default) by lia. cbn [bind].
    eexists. split; [reflexivity|]. rewrite closed_test by exact N. tauto.
Qed.
(** ** Vertices *)
Theorem C67_is_coordinate : forall l p, exists b, ln_is_coordinate l p = Ok b /\ (b = true <-> exists c, In c (lpts l) /\ pt_eq c p).
Proof.
  intros l p. unfold ln_is_coordinate. destruct (forR_all (fun i => negb (equals_2d (point (ln_seq l) i) p)) (fun i _ => c <- seq_coord (ln_seq l) i ;; Ok (if equals_2d c p then inr true else inl tt)) (seq_size (ln_seq l)) true) as [(E & K)|(E & i & Hi & T & _)].
  - intros i Hi. rewrite seq_coord_point by exact Hi. cbn [bind]. now rewrite negb_involutive.
  - rewrite E. cbn [bind]. exists false. split; [reflexivity|]. split; [discriminate|]. intros (c & I & Q). destruct (In_nth _ _ coord_default I) as (i & Hi & <-).
    specialize (K i Hi). apply negb_true_iff, equals_2d_false in K. contradiction.
  - rewrite E. cbn [bind]. exists true. split; [reflexivity|]. split; [|reflexivity]. intros _. exists (point (ln_seq l) i). split; [now apply nth_In|].
    apply equals_2d_eq. now apply negb_false_iff in T.
Qed.
(** ** Reversal *)
(** X, Y (and Z when stored) come in reverse order; reversing again gives the
    original back, bit for bit. *)
Theorem C67_reverse : forall l, (2 <= sdim (ln_seq l))%Z -> exists r, ln_reverse l = Ok r /\
  length (lpts r) = length (lpts l) /\
  (forall i c, nth_error (rev (lpts l)) i = Some c -> exists d, nth_error (lpts r) i = Some d /\ cx d = cx c /\ cy d = cy c) /\
  ln_env r = ln_env l /\ ln_reverse r = Ok l.
Proof.
  intros l D. unfold ln_reverse. rewrite seq_copy_id. cbn [bind]. destruct (reverse_ok (ln_seq l)) as (s & E & E' & D'). pose proof (reverse_xy _ _ D E) as (L & XY).
  rewrite E. cbn [bind]. rewrite create_line_id. cbn [bind ln_seq]. exists (mkLn s (ln_env l)).
  split. { now destruct (ln_env l) as [e|]; [rewrite env_copy|]. }
  split. { unfold lpts. cbn [ln_seq]. now rewrite L, rev_length. }
  split. { intros i c H. unfold lpts. cbn [ln_seq]. assert (i < length (rev (lpts l))) as Hi by (apply nth_error_Some; congruence).
    exists (nth i (scoords s) coord_default). split; [apply nth_error_nth'; unfold lpts in Hi; lia|]. destruct (XY i) as (X & Y); [unfold lpts in Hi; lia|].
    fold (lpts l) in X, Y. rewrite (nth_error_nth _ _ _ H) in X, Y. auto. }
  split; [reflexivity|]. cbn [ln_seq ln_env]. rewrite seq_copy_id. cbn [bind]. rewrite E'. cbn [bind]. rewrite create_line_id. cbn [bind ln_seq].
  destruct l as [ls [e|]]; cbn [ln_env ln_seq]; [now rewrite env_copy|reflexivity].
Qed.
(** Without M values the reversed line is the line of the reversed points. *)
Theorem C67_reverse_points : forall cs, Forall (fun c => cm c = fnan) cs ->
  (l <- create_line cs ;; ln_reverse l) = create_line (rev cs) /\
  (r <- rg_of cs ;; rg_reverse r) = rg_of (rev cs).
Proof.
  intros cs F. unfold create_line, rg_of. rewrite !create_line_id, !rg_of_seq_id. cbn [bind]. unfold ln_reverse, rg_reverse. rewrite !seq_copy_id. cbn [bind ln_seq rg_seq ln_env rg_env].
  rewrite !C29_reverse_without_m by exact F. cbn [bind]. rewrite create_line_id, rg_of_seq_id. auto.
Qed.
(** M values stay at their index instead. *)
Theorem C67_reverse_points_refuted : ~ (forall cs, (l <- create_line cs ;; ln_reverse l) = create_line (rev cs)).
Proof.
  intros H. apply C29_reverse_keeps_m_refuted. intros cs. specialize (H cs). unfold create_line in H. rewrite !create_line_id in H. cbn [bind] in H.
  unfold ln_reverse in H. rewrite seq_copy_id in H. cbn [bind ln_seq ln_env] in H. destruct (reverse_ok (seq_of cs)) as (s & E & _). rewrite E in *. cbn [bind] in H.
  rewrite create_line_id in H. cbn [bind] in H. now injection H as ->.
Qed.
(** ** Order *)
Theorem C67_compare : forall l m, exists c, ln_compare l m = Ok c /\ (c = -1 \/ c = 0 \/ c = 1)%Z /\ ln_compare m l = Ok (- c)%Z /\
  (Forall nn_xy (lpts l) -> Forall nn_xy (lpts m) ->
    (c = -1 <-> lex_lt (lpts l) (lpts m))%Z /\ (c = 1 <-> lex_lt (lpts m) (lpts l))%Z /\ (c = 0 <-> same_pts (lpts l) (lpts m))%Z).
Proof.
  intros l m. exists (arr_compare (lpts l) (lpts m)). unfold ln_compare. rewrite !seq_compare_points_arr. split; [reflexivity|]. split; [apply arr_compare_range|].
  split; [f_equal; apply arr_compare_antisym|]. intros F G. split; [now apply arr_compare_lt|]. split; [|now apply arr_compare_zero].
  rewrite <- arr_compare_lt by assumption. rewrite (arr_compare_antisym (lpts l)). lia.
Qed.
Theorem C67_compare_transitive : forall l m k a b c, Forall nn_xy (lpts l) -> Forall nn_xy (lpts m) -> Forall nn_xy (lpts k) ->
  ln_compare l m = Ok a -> ln_compare m k = Ok b -> ln_compare l k = Ok c -> (a <= 0 -> b <= 0 -> c <= 0)%Z.
Proof.
  unfold ln_compare. intros l m k a b c F G H. rewrite !seq_compare_points_arr. intros A B C. injection A as <-. injection B as <-. injection C as <-.
  now apply arr_compare_trans.
Qed.
Theorem C67_ring_compare : forall r q, exists c, rg_compare r q = Ok c /\ rg_compare q r = Ok (- c)%Z /\
  (Forall nn_xy (rpts r) -> Forall nn_xy (rpts q) ->
    (c = -1 <-> lex_lt (rpts r) (rpts q))%Z /\ (c = 1 <-> lex_lt (rpts q) (rpts r))%Z /\ (c = 0 <-> same_pts (rpts r) (rpts q))%Z).
Proof. intros r q. destruct (C67_compare (mkLn (rg_seq r) None) (mkLn (rg_seq q) None)) as (c & A & _ & B & C). exists c. auto. Qed.
(** With a comparator: by dimension, then lexicographically in the ordinates up
    to the limit, NaN lowest. *)
Theorem C67_compare_with : forall limit l m, small_seq (ln_seq l) -> small_seq (ln_seq m) ->
  exists c, ln_compare_with limit l m = Ok c /\ (c = -1 \/ c = 0 \/ c = 1)%Z /\
    (c = -1 <-> seq_lt limit (ln_seq l) (ln_seq m))%Z /\ (c = 1 <-> seq_lt limit (ln_seq m) (ln_seq l))%Z /\ (c = 0 <-> seq_eq limit (ln_seq l) (ln_seq m))%Z.
Proof. intros limit l m. apply C24_sequence_order. Qed.
(** ** Equality within a tolerance *)
Theorem C67_equals_exact : forall hypot l m t, exists b, ln_equals_exact hypot l m t = Ok b /\
  (b = true <-> Forall2 (fun p q => if feqb t f0 then pt_eq p q else fleb (hypot (fsub (cx p) (cx q)) (fsub (cy p) (cy q))) t = true) (lpts l) (lpts m)).
Proof.
  intros hypot l m t. unfold ln_equals_exact, seq_equals_exact, seq_size. fold (lpts l) (lpts m).
  destruct (Nat.eqb_spec (length (lpts l)) (length (lpts m))) as [L|L]; cbn [negb].
  - rewrite (pairs_loop (fun a b => geometry_equal hypot a b t) (lpts l) (lpts m)); [|exact L|].
    + eexists. split; [reflexivity|]. rewrite all_pairs_F2. split; intros F; (eapply Forall2_impl; [|exact F]); intros p q; cbn beta; unfold geometry_equal, distance; (destruct (feqb t f0); [now rewrite equals_2d_eq|auto]).
    + intros i x y X Y. unfold seq_coord, idx. fold (lpts l) (lpts m). now rewrite X, Y.
  - exists false. split; [reflexivity|]. split; [discriminate|]. intros F. apply Forall2_length in F. contradiction.
Qed.
Theorem C67_ring_equals_exact : forall hypot r q t, exists b, rg_equals_exact hypot r q t = Ok b /\
  (b = true <-> Forall2 (fun p q => if feqb t f0 then pt_eq p q else fleb (hypot (fsub (cx p) (cx q)) (fsub (cy p) (cy q))) t = true) (rpts r) (rpts q)).
Proof.
  intros hypot r q t. unfold rg_equals_exact, seq_equals_exact, seq_size. fold (rpts r) (rpts q).
  destruct (Nat.eqb_spec (length (rpts r)) (length (rpts q))) as [L|L]; cbn [negb].
  - rewrite (pairs_loop (fun a b => coords_equal hypot a b t) (rpts r) (rpts q)); [|exact L|].
    + eexists. split; [reflexivity|]. rewrite all_pairs_F2. split; intros F; (eapply Forall2_impl; [|exact F]); intros x y; cbn beta; unfold coords_equal, distance; (destruct (feqb t f0); [now rewrite equals_2d_eq|auto]).
    + intros i x y X Y. unfold seq_coord, idx. fold (rpts r) (rpts q). now rewrite X, Y.
  - exists false. split; [reflexivity|]. split; [discriminate|]. intros F. apply Forall2_length in F. contradiction.
Qed.
(** ** Normal form *)
(** The normal form is the line or its reverse, whichever is first in the
    lexicographic order. *)
Theorem C67_normalize : forall l, (2 <= sdim (ln_seq l))%Z -> Forall nn_xy (lpts l) ->
  exists n r, ln_normalize l = Ok n /\ ln_reverse l = Ok r /\ (n = l \/ n = r) /\
    ~ lex_lt (rev (lpts n)) (lpts n) /\ ln_normalize n = Ok n.
Proof.
  intros l D F. destruct (C67_reverse l D) as (r & R & _ & _ & Er & _). rewrite ln_normalize_eq by exact F. fold (lpts l).
  destruct (reverse_ok (ln_seq l)) as (s & E & E' & D'). pose proof (reverse_xy _ _ D E) as XY. fold (lpts l) in XY.
  assert (r = mkLn s (ln_env l)) as Er'.
  { unfold ln_reverse in R. rewrite seq_copy_id in R. cbn [bind] in R. rewrite E in R. cbn [bind] in R. rewrite create_line_id in R. cbn [bind ln_seq] in R.
    destruct (ln_env l) as [e|]; injection R as <-; [now rewrite env_copy|reflexivity]. }
  destruct (Z.gtb_spec (arr_compare (lpts l) (rev (lpts l))) 0) as [G|G].
  - rewrite E. cbn [bind]. rewrite <- Er'. exists r, r. split; [reflexivity|]. split; [exact R|]. split; [auto|].
    assert (eq_xy (lpts r) (rev (lpts l))) as X by (rewrite Er'; exact XY). assert (Forall nn_xy (lpts r)) as Fr by (apply (eq_xy_nn _ _ X); now apply Forall_rev).
    assert (arr_compare (lpts r) (rev (lpts r)) = arr_compare (rev (lpts l)) (lpts l)) as C.
    { apply arr_compare_xy; [exact X|]. rewrite <- (rev_involutive (lpts l)). now apply eq_xy_rev. }
    rewrite (arr_compare_antisym (lpts l)) in C. split.
    + intros K. apply arr_compare_lt in K; [|now apply Forall_rev|exact Fr]. rewrite (arr_compare_antisym (lpts r)), C in K. lia.
    + rewrite ln_normalize_eq by exact Fr. fold (lpts r). rewrite C. destruct (Z.gtb_spec (- arr_compare (lpts l) (rev (lpts l))) 0); [lia|reflexivity].
  - exists l, r. split; [reflexivity|]. split; [exact R|]. split; [auto|]. split.
    + intros K. apply arr_compare_lt in K; [|now apply Forall_rev|exact F]. rewrite (arr_compare_antisym (lpts l)) in K. lia.
    + rewrite ln_normalize_eq by exact F. fold (lpts l). destruct (Z.gtb_spec (arr_compare (lpts l) (rev (lpts l))) 0); [lia|reflexivity].
Qed.
(** It does not depend on the direction of the line: a line and its reverse
    have normal forms at the same positions, and the very same normal form
    unless the line reads the same in both directions. *)
Theorem C67_normalize_direction : forall l r, (2 <= sdim (ln_seq l))%Z -> Forall nn_xy (lpts l) -> ln_reverse l = Ok r ->
  exists n m, ln_normalize l = Ok n /\ ln_normalize r = Ok m /\ same_pts (lpts n) (lpts m) /\ (~ palindrome (lpts l) -> n = m).
Proof.
  intros l r D F R. destruct (reverse_ok (ln_seq l)) as (s & E & E' & D'). pose proof (reverse_xy _ _ D E) as XY. fold (lpts l) in XY.
  assert (r = mkLn s (ln_env l)) as Er.
  { unfold ln_reverse in R. rewrite seq_copy_id in R. cbn [bind] in R. rewrite E in R. cbn [bind] in R. rewrite create_line_id in R. cbn [bind ln_seq] in R.
    destruct (ln_env l) as [e|]; injection R as <-; [now rewrite env_copy|reflexivity]. }
  assert (eq_xy (lpts r) (rev (lpts l))) as X by (rewrite Er; exact XY). assert (Forall nn_xy (lpts r)) as Fr by (apply (eq_xy_nn _ _ X); now apply Forall_rev).
  assert (arr_compare (lpts r) (rev (lpts r)) = - arr_compare (lpts l) (rev (lpts l)))%Z as C.
  { rewrite <- arr_compare_antisym. apply arr_compare_xy; [exact X|]. rewrite <- (rev_involutive (lpts l)). now apply eq_xy_rev. }
  rewrite !ln_normalize_eq by assumption. fold (lpts l) (lpts r). rewrite C, E.
  assert (seq_reverse (ln_seq r) = Ok (ln_seq l)) as -> by (rewrite Er; exact E'). cbn [bind].
  assert (mkLn (ln_seq l) (ln_env r) = l) as -> by (rewrite Er; now destruct l). rewrite <- Er.
  destruct (Z.gtb_spec (arr_compare (lpts l) (rev (lpts l))) 0) as [G|G], (Z.gtb_spec (- arr_compare (lpts l) (rev (lpts l))) 0) as [H|H]; try lia; eexists _, _; (split; [reflexivity|]); (split; [reflexivity|]).
  - split; [now apply same_pts_refl|auto].
  - split; [now apply same_pts_refl|auto].
  - assert (palindrome (lpts l)) as P by (apply palindrome_zero; [exact F|lia]). split; [|contradiction].
    apply arr_compare_zero; [exact F|exact Fr|]. rewrite (arr_compare_xy (lpts l) (lpts l) (lpts r) (rev (lpts l)) (eq_xy_refl _) X). lia.
Qed.
(** With NaN coordinates the normal form depends on the direction. *)
Theorem C67_normalize_nan_refuted : ~ (forall l r n m, ln_reverse l = Ok r -> ln_normalize l = Ok n -> ln_normalize r = Ok m -> n = m).
Proof.
  intros H. assert (match (let l := mkLn (seq_of [mkC fnan f0 fnan fnan; xy 1 0]) None in r <- ln_reverse l ;; a <- ln_normalize l ;; b <- ln_normalize r ;;
    Ok (fis_nan (cx (nth 0 (lpts a) coord_default)), fis_nan (cx (nth 0 (lpts b) coord_default)))) with Ok (x, y) => Bool.eqb x y | _ => true end = false) as K by (vm_compute; reflexivity).
  cbv zeta in K. specialize (H (mkLn (seq_of [mkC fnan f0 fnan fnan; xy 1 0]) None)). revert H K. generalize (mkLn (seq_of [mkC fnan f0 fnan fnan; xy 1 0]) None). intros l H K.
  destruct (ln_reverse l) as [r|]; [|discriminate]. cbn [bind] in K. destruct (ln_normalize l) as [n|]; [|discriminate]. cbn [bind] in K.
  destruct (ln_normalize r) as [m|] eqn:M; [|discriminate]. cbn [bind] in K. rewrite (H r n m eq_refl eq_refl M), eqb_reflx in K. discriminate.
Qed.
(** ** Envelopes *)
(** The envelope of a line is the smallest box around its points. *)
Theorem C67_envelope : forall l, Forall nn_xy (lpts l) -> let e := ln_compute_envelope l in
  (lpts l = [] -> e = env_default) /\ (lpts l <> [] -> is_box e) /\
  Forall (fun p => in_box e (cx p) (cy p)) (lpts l) /\
  (forall b, wf_env b -> Forall (fun p => in_box b (cx p) (cy p)) (lpts l) -> subset e b).
Proof.
  intros l F e. assert (e = envelope_of (lpts l)) as ->.
  { unfold e, ln_compute_envelope, ln_is_empty, seq_size, seq_expand_envelope, envelope_of. fold (lpts l). now destruct (lpts l). }
  split; [now intros ->|]. split; [intros N; now apply envelope_of_box|]. split.
  - apply Forall_forall. intros p I. now apply envelope_of_covers.
  - intros b W G. now apply envelope_of_least.
Qed.
(** Rings keep their envelope.  Whatever was done with the ring before, what it
    reports is the smallest box around its present points. *)
Inductive ring_made : GRing -> Prop :=
| made_new s r : rg_of_seq s = Ok r -> ring_made r
| made_copy r r' : ring_made r -> rg_copy r = Ok r' -> ring_made r'
| made_reverse r r' : ring_made r -> rg_reverse r = Ok r' -> ring_made r'
| made_asked r : ring_made r -> ring_made (fst (rg_get_envelope r)).
Lemma rg_compute_envelope_eq r : rg_compute_envelope r = envelope_of (rpts r).
Proof. unfold rg_compute_envelope, rg_is_empty, seq_size, seq_expand_envelope, envelope_of. fold (rpts r). now destruct (rpts r). Qed.
Lemma same_points_refl e : same_points e e.
Proof. now intros x y. Qed.
Lemma ring_cache r : ring_made r -> Forall nn_xy (rpts r) -> forall e, rg_env r = Some e -> same_points e (envelope_of (rpts r)).
Proof.
  induction 1 as [s r E|r r' _ IH E|r r' _ IH E|r _ IH]; intros F e Q.
  - rewrite rg_of_seq_id in E. injection E as <-. discriminate.
  - rewrite rg_copy_id in E. injection E as <-. discriminate.
  - unfold rg_reverse in E. rewrite seq_copy_id in E. cbn [bind] in E. destruct (reverse_ok (rg_seq r)) as (s & S & _). rewrite S in E. cbn [bind] in E. rewrite rg_of_seq_id in E. cbn [bind rg_seq rg_pm] in E.
    destruct (rg_env r) as [e'|] eqn:C; injection E as <-; [|discriminate]. cbn [rg_env] in Q. injection Q as <-. rewrite env_copy. unfold rpts in *. cbn [rg_seq] in *.
    pose proof (proj2 (reverse_nn _ _ S) F) as F'. intros x y. rewrite (IH F' e' eq_refl x y). symmetry. now apply (reverse_envelope _ _ S F').
  - unfold rg_get_envelope in *. destruct (rg_env r) as [e'|] eqn:C; cbn [fst] in *.
    + apply IH; congruence.
    + cbn [rg_env] in Q. injection Q as <-. rewrite rg_compute_envelope_eq. apply same_points_refl.
Qed.
Theorem C67_ring_envelope : forall r, ring_made r -> Forall nn_xy (rpts r) ->
  let e := snd (rg_get_envelope r) in
  Forall (fun p => in_box e (cx p) (cy p)) (rpts r) /\
  (forall b, wf_env b -> Forall (fun p => in_box b (cx p) (cy p)) (rpts r) -> subset e b) /\
  rpts (fst (rg_get_envelope r)) = rpts r.
Proof.
  intros r M F e. assert (same_points e (envelope_of (rpts r))) as S.
  { unfold e, rg_get_envelope. destruct (rg_env r) as [e'|] eqn:C; cbn [snd]; rewrite env_copy; [now apply ring_cache|rewrite rg_compute_envelope_eq; apply same_points_refl]. }
  split; [|split].
  - apply Forall_forall. intros p I. apply S. now apply envelope_of_covers.
  - intros b W G x y K. apply S in K. revert x y K. now apply envelope_of_least.
  - unfold rg_get_envelope. now destruct (rg_env r).
Qed.
(** Line strings never have an envelope in store, so [init], which replaces the
    points only, leaves nothing stale: whatever was done with a line before, after
    [init] it is the same as a new line with the new points. *)
Inductive line_made : GLine -> Prop :=
| lmade_new s : line_made (ln_new s)
| lmade_create s l : create_line_of_seq s = Ok l -> line_made l
| lmade_init l s : line_made l -> line_made (ln_init l s)
| lmade_copy l l' : line_made l -> ln_copy l = Ok l' -> line_made l'
| lmade_reverse l l' : line_made l -> ln_reverse l = Ok l' -> line_made l'
| lmade_normalize l l' : line_made l -> ln_normalize l = Ok l' -> line_made l'.
Lemma normalize_env l l' : ln_normalize l = Ok l' -> ln_env l' = ln_env l.
Proof.
  unfold ln_normalize. set (f := fun i _ => _).
  assert (K : forall n i u r, forR n i u f = Ok (inr r) -> ln_env r = ln_env l).
  { induction n as [|n IH]; intros i u r; cbn [forR]; [discriminate|].
    destruct (f i u) as [[u'|r']|] eqn:E; cbn [bind]; try discriminate; [apply IH|].
    intros H. injection H as <-. revert E. unfold f.
    repeat match goal with |- bind ?x _ = _ -> _ => destruct x; cbn [bind]; [|discriminate] end.
    destruct (negb _); [|discriminate]. destruct (_ >? 0)%Z.
    - repeat match goal with |- bind ?x _ = _ -> _ => destruct x; cbn [bind]; [|discriminate] end. intros H. now injection H as <-.
    - intros H. now injection H as <-. }
  destruct (forR _ _ _ f) as [[u|r]|] eqn:E; cbn [bind]; try discriminate; intros H; injection H as <-; [reflexivity|]. exact (K _ _ _ _ E).
Qed.
Theorem C67_line_made : forall l s, line_made l -> ln_init l s = ln_new s /\ lpts (ln_init l s) = scoords s /\
  exists q, create_line_of_seq s = Ok q /\ q = ln_init l s.
Proof.
  intros l s M. assert (ln_env l = None) as N.
  { induction M as [s'|s' l E|l s' _ IH|l l' _ IH E|l l' _ IH E|l l' _ IH E].
    - reflexivity.
    - rewrite create_line_id in E. now injection E as <-.
    - exact IH.
    - unfold ln_copy in E. rewrite seq_copy_id in E. now injection E as <-.
    - unfold ln_reverse in E. rewrite seq_copy_id in E. cbn [bind] in E. destruct (seq_reverse (ln_seq l)) as [s'|]; [|discriminate]. cbn [bind] in E.
      rewrite create_line_id in E. cbn [bind] in E. rewrite IH in E. now injection E as <-.
    - now rewrite (normalize_env _ _ E). }
  unfold ln_init. rewrite N. repeat split. exists (mkLn s None). now rewrite create_line_id.
Qed.
(** ** Copies *)
Theorem C67_copy : forall l r, (exists l', ln_copy l = Ok l' /\ lpts l' = lpts l /\ ln_seq l' = ln_seq l) /\ (exists r', rg_copy r = Ok r' /\ rg_seq r' = rg_seq r).
Proof. intros l r. split; [unfold ln_copy; rewrite seq_copy_id|rewrite rg_copy_id]; eexists; repeat split. Qed.

Example C67_line_made_example : exists l r, create_line [xy 3 1; xy 0 2] = Ok l /\ ln_reverse l = Ok r /\ line_made r /\
  lpts (ln_init r (seq_of [xy 7 7])) <> lpts r.
Proof.
  set (cs := [xy 3 1; xy 0 2]). assert (Forall (fun c => cm c = fnan) cs) as Fm by repeat constructor. destruct (C67_reverse_points cs Fm) as (R & _).
  unfold create_line in *. rewrite !create_line_id in *. cbn [bind] in R. eexists _, _. split; [reflexivity|]. split; [exact R|]. split.
  - eapply lmade_reverse; [|exact R]. eapply lmade_create. apply create_line_id.
  - discriminate.
Qed.
Example C67_example : let cs := [xy 3 1; xy 0 2; xy 2 5; xy 3 0] in
  exists l r n, create_line cs = Ok l /\ ln_reverse l = Ok r /\ ln_normalize l = Ok n /\ n = r /\ n <> l /\
    (2 <= sdim (ln_seq l))%Z /\ Forall nn_xy (lpts l) /\ ~ palindrome (lpts l) /\ ln_is_closed l = Ok false /\
    ln_compare l r = Ok 1%Z /\ ring_made (mkRg (seq_of cs) None None).
Proof.
  intros cs. assert (Forall (fun c => cm c = fnan) cs) as Fm by repeat constructor. destruct (C67_reverse_points cs Fm) as (R & _).
  unfold create_line in *. rewrite !create_line_id in *. cbn [bind] in R. eexists _, _, _. split; [reflexivity|]. split; [exact R|].
  assert (Forall nn_xy cs) as F by (repeat constructor).
  assert ((arr_compare cs (rev cs) =? 1)%Z = true) as C by (vm_compute; reflexivity). apply Z.eqb_eq in C.
  split. { rewrite ln_normalize_eq by exact F. cbn [ln_seq scoords seq_of ln_env]. rewrite C. cbn [Z.gtb Z.compare]. rewrite C29_reverse_without_m by exact Fm. reflexivity. }
  split; [reflexivity|]. split.
  { intros Q. apply (f_equal (fun l => feqb (cy (nth 0 (lpts l) coord_default)) f1)) in Q. vm_compute in Q. discriminate. }
  split; [vm_compute; discriminate|]. split; [exact F|]. split. { intros P. apply palindrome_zero in P; [|exact F]. cbn [lpts ln_seq scoords seq_of] in P. change (lpts (mkLn (seq_of cs) None)) with cs in P. congruence. }
  split; [vm_compute; reflexivity|]. split. { unfold ln_compare. rewrite seq_compare_points_arr. cbn [ln_seq scoords seq_of]. now rewrite C. }
  apply made_new with (seq_of cs). apply rg_of_seq_id.
Qed.
