From Coq Require Import ZArith Bool List Lia Permutation.
From Verif Require Import Base F64 F64Facts Coordinate_model Coordinate_spec Envelope_model Envelope_spec
  Envelope_proofs Coordinate_proofs MathUtil_model CoordArrays_model CoordArrays_spec.
Import ListNotations.
Open Scope Z_scope.

(** ** C13 compare *)
Lemma arr_compare_range l1 l2 : arr_compare l1 l2 = -1 \/ arr_compare l1 l2 = 0 \/ arr_compare l1 l2 = 1.
Proof.
  revert l2. induction l1 as [|a l1 IH]; intros [|b l2]; cbn; auto.
  destruct (Z.eqb_spec (compare_to a b) 0); cbn; auto. apply compare_to_range.
Qed.
Lemma arr_compare_antisym l1 l2 : arr_compare l2 l1 = - arr_compare l1 l2.
Proof.
  revert l2. induction l1 as [|a l1 IH]; intros [|b l2]; cbn; auto.
  rewrite (compare_to_antisym a b).
  destruct (Z.eqb_spec (compare_to a b) 0) as [E|E].
  - rewrite E. cbn. apply IH.
  - destruct (Z.eqb_spec (- compare_to a b) 0); cbn; lia.
Qed.
Lemma arr_compare_lt l1 l2 : Forall nn_xy l1 -> Forall nn_xy l2 ->
  (arr_compare l1 l2 = -1 <-> lex_lt l1 l2).
Proof.
  revert l2. induction l1 as [|a l1 IH]; intros [|b l2] F1 F2; cbn.
  - split; [discriminate|intros H; inversion H].
  - split; [constructor|reflexivity].
  - split; [discriminate|intros H; inversion H].
  - inversion_clear F1 as [|? ? Na F1']. inversion_clear F2 as [|? ? Nb F2'].
    pose proof (compare_to_lt a b Na Nb) as L. pose proof (compare_to_zero a b Na Nb) as Z0.
    specialize (IH l2 F1' F2').
    destruct (Z.eqb_spec (compare_to a b) 0) as [E|E]; cbn.
    + rewrite IH. split; intros H.
      * apply lex_tail; auto. now apply Z0.
      * inversion H; subst; auto. exfalso. apply L in H1. congruence.
    + rewrite L. split; intros H.
      * now apply lex_head.
      * inversion H; subst; auto. exfalso. apply E. now apply Z0.
Qed.
Lemma arr_compare_zero l1 l2 : Forall nn_xy l1 -> Forall nn_xy l2 ->
  (arr_compare l1 l2 = 0 <-> same_pts l1 l2).
Proof.
  unfold same_pts. revert l2. induction l1 as [|a l1 IH]; intros [|b l2] F1 F2; cbn.
  - split; auto.
  - split; [discriminate|intros H; inversion H].
  - split; [discriminate|intros H; inversion H].
  - inversion_clear F1 as [|? ? Na F1']. inversion_clear F2 as [|? ? Nb F2'].
    pose proof (compare_to_zero a b Na Nb) as Z0. specialize (IH l2 F1' F2').
    destruct (Z.eqb_spec (compare_to a b) 0) as [E|E]; cbn.
    + rewrite IH. split; intros H; [constructor; auto; now apply Z0|now inversion H].
    + split; intros H; [contradiction|]. exfalso. apply E. apply Z0. now inversion H.
Qed.
Lemma arr_compare_trans l1 l2 l3 : Forall nn_xy l1 -> Forall nn_xy l2 -> Forall nn_xy l3 ->
  arr_compare l1 l2 <= 0 -> arr_compare l2 l3 <= 0 -> arr_compare l1 l3 <= 0.
Proof.
  revert l2 l3. induction l1 as [|a l1 IH]; intros [|b l2] [|c l3] F1 F2 F3; cbn; try lia.
  inversion_clear F1 as [|? ? Na F1']. inversion_clear F2 as [|? ? Nb F2']. inversion_clear F3 as [|? ? Nc F3'].
  pose proof (compare_to_trans a b c Na Nb Nc) as T.
  destruct (Z.eqb_spec (compare_to a b) 0) as [E1|E1], (Z.eqb_spec (compare_to b c) 0) as [E2|E2]; cbn.
  - apply compare_to_zero in E1; auto. rewrite (compare_to_eq_l a b c), E2 by auto. cbn. now apply IH.
  - apply compare_to_zero in E1; auto. rewrite (compare_to_eq_l a b c) by auto.
    destruct (Z.eqb_spec (compare_to b c) 0); cbn; lia.
  - apply compare_to_zero in E2; auto. rewrite <- (compare_to_eq_r a b c) by auto.
    destruct (Z.eqb_spec (compare_to a b) 0); cbn; lia.
  - intros H1 H2. pose proof (compare_to_trans_lt a b c Na Nb Nc).
    destruct (Z.eqb_spec (compare_to a c) 0); cbn; lia.
Qed.
Lemma arr_equals_spec l1 l2 : arr_equals l1 l2 = true <-> same_pts l1 l2.
Proof.
  unfold arr_equals, same_pts. revert l2. induction l1 as [|a l1 IH]; intros [|b l2]; cbn.
  - split; auto.
  - split; [discriminate|intros H; inversion H].
  - split; [discriminate|intros H; inversion H].
  - specialize (IH l2). destruct (Nat.eqb (length l1) (length l2)) eqn:E; cbn in *.
    + destruct (equals_2d a b) eqn:Q; cbn.
      * rewrite IH. apply equals_2d_eq in Q. split; intros H; [now constructor|now inversion H].
      * split; [discriminate|]. intros H. inversion H; subst. apply equals_2d_false in Q. contradiction.
    + split; [discriminate|]. intros H. inversion H; subst. apply IH. assumption.
Qed.

(** ** C14 repeats *)
Lemma has_repeated_spec l : has_repeated_points l = false <-> no_adjacent_repeat l.
Proof.
  induction l as [|a [|b l] IH].
  - split; auto. intros _ [|i] x y H; discriminate.
  - split; auto. intros _ [|[|i]] x y H1 H2; discriminate.
  - cbn [has_repeated_points]. destruct (equals_2d a b) eqn:E.
    + split; [discriminate|]. intros H. apply equals_2d_eq in E. now destruct (H O a b).
    + rewrite IH. apply equals_2d_false in E. split; intros H.
      * intros [|i] x y H1 H2; [cbn in *; congruence|]. apply (H i); auto.
      * intros i x y H1 H2. apply (H (S i)); auto.
Qed.

(** The list with position of its last element [p]; adding a list. *)
Lemma add_repeated_snoc v p c : add_coordinate_repeated (v ++ [p]) c false =
  if equals_2d p c then v ++ [p] else (v ++ [p]) ++ [c].
Proof.
  unfold add_coordinate_repeated. rewrite app_length, Nat.add_1_r. cbn [negb Nat.leb].
  replace (S (length v) - 1)%nat with (length v) by lia.
  rewrite nth_error_app2, Nat.sub_diag by lia. reflexivity.
Qed.
Lemma add_list_drop v p q cl : (p = q \/ pt_eq p q) -> exists r, drop_after q cl r /\
  add_coordinate_list_repeated (v ++ [p]) cl false = (v ++ [p]) ++ r.
Proof.
  unfold add_coordinate_list_repeated. revert v p q. induction cl as [|c cl IH]; intros v p q Epq; cbn [fold_left].
  - exists []. split; [constructor|now rewrite app_nil_r].
  - rewrite add_repeated_snoc. destruct (equals_2d p c) eqn:E.
    + apply equals_2d_eq in E. destruct (IH v p c (or_intror E)) as (r & D & H). exists r. split; auto.
      apply da_drop; auto. destruct Epq as [<-|Q]; auto. eapply pt_eq_trans; [apply pt_eq_sym|]; eauto.
    + apply equals_2d_false in E.
      destruct (IH (v ++ [p]) c c (or_introl eq_refl)) as (r & D & H). exists (c :: r). split.
      * apply da_keep; auto. destruct Epq as [<-|Q]; auto. intros C. apply E. eapply pt_eq_trans; eauto.
      * rewrite H. now rewrite <- app_assoc.
Qed.
Lemma list_new_dedup l : drop_repeats l (list_new_with_repeated l false).
Proof.
  destruct l as [|a l]; [constructor|]. unfold list_new_with_repeated, add_coordinate_list_repeated.
  cbn [fold_left]. change (add_coordinate_repeated [] a false) with ([] ++ [a]).
  destruct (add_list_drop [] a a l (or_introl eq_refl)) as (r & D & H).
  unfold add_coordinate_list_repeated in H. rewrite H. now constructor.
Qed.
Lemma drop_after_none p l : no_adjacent_repeat (p :: l) -> drop_after p l l.
Proof.
  revert p. induction l as [|a l IH]; intros p H; [constructor|]. apply da_keep.
  - apply (H O); reflexivity.
  - apply IH. intros i x y H1 H2. apply (H (S i)); auto.
Qed.
Lemma no_adjacent_cons p l : no_adjacent_repeat (p :: l) <->
  no_adjacent_repeat l /\ (forall a, hd_error l = Some a -> ~ pt_eq p a).
Proof.
  split.
  - intros H. split.
    + intros i x y H1 H2. apply (H (S i)); auto.
    + intros a Ha. apply (H O); [reflexivity|]. destruct l; [discriminate|]. exact Ha.
  - intros [H1 H2] [|i] x y A B.
    + cbn in A. inversion A; subst. apply H2. destruct l; [discriminate|]. exact B.
    + apply (H1 i); auto.
Qed.
Lemma no_adjacent_nil : no_adjacent_repeat [].
Proof. intros [|i] ? ? H; discriminate. Qed.
Lemma drop_after_clean p q l r : drop_after q l r -> (p = q \/ pt_eq p q) -> no_adjacent_repeat (p :: r).
Proof.
  intros D. revert p. induction D; intros p0 E.
  - apply no_adjacent_cons. split; [apply no_adjacent_nil|intros ? H; discriminate].
  - apply IHD. right. destruct E as [<-|E]; auto. eapply pt_eq_trans; eauto.
  - apply no_adjacent_cons. split; [apply IHD; now left|]. intros x Hx. cbn in Hx. inversion Hx; subst.
    destruct E as [<-|E]; auto. intros C. apply H. eapply pt_eq_trans; [apply pt_eq_sym|]; eauto.
Qed.
Lemma drop_repeats_clean l r : drop_repeats l r -> no_adjacent_repeat r.
Proof. intros D. inversion D; subst; [apply no_adjacent_nil|]. eapply drop_after_clean; eauto. Qed.
Lemma drop_after_fun p l r r' : drop_after p l r -> drop_after p l r' -> r = r'.
Proof.
  intros D. revert r'. induction D; intros r' D'; inversion D'; subst; auto; try contradiction.
  f_equal; auto.
Qed.
Lemma drop_repeats_fun l r r' : drop_repeats l r -> drop_repeats l r' -> r = r'.
Proof. intros D D'. inversion D; subst; inversion D'; subst; auto. f_equal. eapply drop_after_fun; eauto. Qed.
Lemma drop_repeats_none l : no_adjacent_repeat l -> drop_repeats l l.
Proof. destruct l; constructor. now apply drop_after_none. Qed.
Lemma remove_repeated_spec l : drop_repeats l (remove_repeated_points l).
Proof.
  unfold remove_repeated_points. destruct (has_repeated_points l) eqn:E; cbn.
  - apply list_new_dedup.
  - apply drop_repeats_none. now apply has_repeated_spec.
Qed.

(** ** C15 invalid points *)
Lemma valid_spec c : coord_is_valid c = true <-> valid_pt c.
Proof.
  unfold coord_is_valid, valid_pt, fin_xy. destruct (fis_finite (cx c)), (fis_finite (cy c)); cbn; intuition discriminate.
Qed.
Lemma fold_valid_filter l v :
  fold_left (fun v c => if negb (coord_is_valid c) then v else add_coordinate_repeated v c false) l v =
  add_coordinate_list_repeated v (filter coord_is_valid l) false.
Proof.
  unfold add_coordinate_list_repeated. revert v. induction l as [|a l IH]; intros v; cbn; auto.
  destruct (coord_is_valid a); cbn; apply IH.
Qed.
Lemma filter_true {A} (f : A -> bool) l : Forall (fun a => f a = true) l -> filter f l = l.
Proof. induction 1; cbn; auto. rewrite H. now f_equal. Qed.
Lemma has_roi_spec l : has_repeated_or_invalid_points l = false <->
  no_adjacent_repeat l /\ Forall valid_pt (tl l).
Proof.
  induction l as [|a [|b l] IH].
  - split; auto. intros _. split; [apply no_adjacent_nil|constructor].
  - split; auto. intros _. split; [|constructor]. intros [|[|i]] x y H1 H2; discriminate.
  - cbn [has_repeated_or_invalid_points tl] in *. destruct (coord_is_valid b) eqn:V; cbn.
    + apply valid_spec in V. rewrite no_adjacent_cons. destruct (equals_2d a b) eqn:E.
      * split; [discriminate|]. intros [[_ H] _]. apply equals_2d_eq in E. now destruct (H b).
      * rewrite IH. apply equals_2d_false in E. split.
        -- intros [H1 H2]. repeat split; auto. intros x Hx. cbn in Hx. congruence.
        -- intros [[H1 _] H2]. inversion H2. split; auto.
    + split; [discriminate|]. intros [_ H]. inversion H as [|? ? V']. apply valid_spec in V'. congruence.
Qed.
Lemma remove_roi_spec l :
  (has_repeated_or_invalid_points l = true \/ (forall a, hd_error l = Some a -> valid_pt a)) ->
  exists m, m = filter coord_is_valid l /\ drop_repeats m (remove_repeated_or_invalid_points l).
Proof.
  intros H. exists (filter coord_is_valid l). split; [reflexivity|].
  unfold remove_repeated_or_invalid_points. destruct (has_repeated_or_invalid_points l) eqn:E; cbn.
  - rewrite fold_valid_filter. apply list_new_dedup.
  - destruct H as [H|H]; [discriminate|]. apply has_roi_spec in E. destruct E as [E1 E2].
    rewrite filter_true. now apply drop_repeats_none.
    destruct l as [|a l]; [constructor|]. constructor.
    + apply valid_spec. now apply H.
    + eapply Forall_impl; [|exact E2]. intros x. apply valid_spec.
Qed.
Lemma drop_after_in p l r x : drop_after p l r -> In x r -> In x l.
Proof. induction 1; cbn; intuition. Qed.
Lemma drop_repeats_in l r x : drop_repeats l r -> In x r -> In x l.
Proof. intros D. inversion D; subst; auto. cbn. intros [H0|H0]; auto. right. eapply drop_after_in; eauto. Qed.
Lemma remove_roi_invalid l :
  (exists p, In p (remove_repeated_or_invalid_points l) /\ ~ valid_pt p) <->
  (exists p t, l = p :: t /\ ~ valid_pt p /\ Forall valid_pt t /\ no_adjacent_repeat l).
Proof.
  split.
  - intros (p & I & NV).
    destruct (has_repeated_or_invalid_points l) eqn:E.
    + destruct (remove_roi_spec l (or_introl E)) as (m & -> & D).
      exfalso. apply NV. apply valid_spec. pose proof (drop_repeats_in _ _ p D I) as J.
      apply filter_In in J. tauto.
    + unfold remove_repeated_or_invalid_points in I. rewrite E in I. cbn in I.
      apply has_roi_spec in E. destruct E as [E1 E2]. destruct l as [|a t]; [destruct I|].
      exists a, t. repeat split; auto. destruct I as [->|I]; auto.
      exfalso. apply NV. cbn in E2. rewrite Forall_forall in E2. now apply E2.
  - intros (p & t & -> & NV & V & N). exists p. split; auto.
    unfold remove_repeated_or_invalid_points.
    replace (has_repeated_or_invalid_points (p :: t)) with false; [now left|].
    symmetry. now apply has_roi_spec.
Qed.

(** ** C16 reversal *)
(** Filling an array position by position. *)
Lemma fill_spec {A} (d : A) n (f : nat -> res A) (g : nat -> A) k off init :
  length init = n -> (off + k <= n)%nat ->
  (forall i, (i < k)%nat -> f i = Ok (g i)) ->
  exists r, forN k 0 init (fun i a => c <- f i ;; upd a (off + i)%nat c) = Ok r /\ length r = n /\
   forall j, nth j r d = if (Nat.leb off j && Nat.ltb j (off + k))%bool then g (j - off)%nat else nth j init d.
Proof.
  intros L B Hf.
  destruct (forN_ind (fun i a => (i <= k)%nat /\ length a = n /\
     forall j, nth j a d = if (Nat.leb off j && Nat.ltb j (off + i))%bool then g (j - off)%nat else nth j init d)
     (fun i a => c <- f i ;; upd a (off + i)%nat c) k 0 init) as (r & E & _ & Lr & Nr).
  - split; [lia|split; [assumption|]]. intros j. destruct (Nat.leb_spec off j), (Nat.ltb_spec j (off + 0)); cbn; auto; lia.
  - intros i a Hi (_ & La & Na). rewrite Hf by lia. cbn [bind].
    destruct (upd_some a (off + i) (g i)) as (a' & Ea); [lia|]. exists a'. split; [assumption|].
    destruct (upd_spec _ _ _ _ Ea) as (L' & _ & N'). split; [lia|split; [lia|]].
    intros j. rewrite N', Na. destruct (Nat.eqb_spec j (off + i)) as [->|NE].
    + destruct (Nat.leb_spec off (off + i)), (Nat.ltb_spec (off + i) (off + S i)); cbn; try lia.
      f_equal. lia.
    + destruct (Nat.leb_spec off j), (Nat.ltb_spec j (off + i)), (Nat.ltb_spec j (off + S i)); cbn; auto; lia.
  - exists r. auto.
Qed.
Lemma bind_id {A} (m : res A) : (x <- m ;; Ok x) = m.
Proof. destruct m; reflexivity. Qed.

Lemma forN_ext {S} n lo (s : S) b1 b2 :
  (forall i s, (lo <= i < lo + n)%nat -> b1 i s = b2 i s) -> forN n lo s b1 = forN n lo s b2.
Proof.
  revert lo s. induction n as [|n IH]; intros lo s H; cbn; auto.
  rewrite H by lia. destruct (b2 lo s); cbn; auto. apply IH. intros. apply H. lia.
Qed.
Lemma forR_ext {S R} n lo (s : S) (b1 b2 : nat -> S -> res (S + R)) :
  (forall i s, (lo <= i < lo + n)%nat -> b1 i s = b2 i s) -> forR n lo s b1 = forR n lo s b2.
Proof.
  revert lo s. induction n as [|n IH]; intros lo s H; cbn; auto.
  rewrite H by lia. destruct (b2 lo s) as [[]|]; cbn; auto. apply IH. intros. apply H. lia.
Qed.
Lemma usub_ok a b : (b <= a)%nat -> usub a b = Ok (a - b)%nat.
Proof. intros H. unfold usub. apply Nat.leb_le in H. now rewrite H. Qed.
Lemma usub_panic a b : (a < b)%nat -> usub a b = Panic.
Proof. intros H. unfold usub. apply Nat.leb_gt in H. now rewrite H. Qed.

Lemma to_array_reverse v : to_coordinate_array_forward v false = Ok (rev v).
Proof.
  unfold to_coordinate_array_forward. set (n := length v).
  rewrite (forN_ext n 0 _ _ (fun i pts => c <- Ok (nth (n - 1 - i) v coord_default) ;; upd pts (0 + i)%nat c)).
  2:{ intros i s Hi. rewrite !usub_ok by lia. cbn [bind]. rewrite usub_ok by lia. cbn [bind].
      rewrite (nth_error_nth' v coord_default) by (fold n; lia). do 2 f_equal. lia. }
  destruct (fill_spec coord_default n (fun i => Ok (nth (n - 1 - i) v coord_default))
     (fun i => nth (n - 1 - i) v coord_default) n 0 (repeat coord_default n)) as (r & E & L & N); auto.
  { apply repeat_length. }
  rewrite E. f_equal. apply nth_ext_eq with coord_default. { now rewrite rev_length. }
  intros i Hi. rewrite N. destruct (Nat.leb_spec 0 i), (Nat.ltb_spec i (0 + n)); cbn; try lia.
  rewrite rev_nth by (fold n; lia). fold n. f_equal. lia.
Qed.

Lemma copy_deep_spec cs : copy_deep cs = Ok cs.
Proof.
  unfold copy_deep. set (n := length cs).
  destruct (fill_spec coord_default n (idx cs) (fun i => nth i cs coord_default) n 0 (repeat coord_default n))
    as (r & E & L & N); auto.
  { apply repeat_length. } { intros i Hi. now apply idx_nth. }
  cbn [Nat.add] in E. rewrite E. f_equal. apply nth_ext_eq with coord_default; auto.
  intros i Hi. rewrite N. destruct (Nat.leb_spec 0 i), (Nat.ltb_spec i (0 + n)); cbn; try lia. f_equal. lia.
Qed.
Lemma nth_skipn_aux {A} (l : list A) n i d : nth i (skipn n l) d = nth (n + i) l d.
Proof. revert l. induction n; intros [|a l]; cbn; auto. destruct i; reflexivity. Qed.
Lemma nth_firstn_aux {A} (l : list A) n i d : (i < n)%nat -> nth i (firstn n l) d = nth i l d.
Proof. revert l i. induction n; intros [|a l] [|i] H; cbn; auto; try lia. apply IHn. lia. Qed.
Lemma copy_deep_to_spec src s dest d len : (s + len <= length src)%nat -> (d + len <= length dest)%nat ->
  copy_deep_to src s dest d len =
  Ok (firstn d dest ++ firstn len (skipn s src) ++ skipn (d + len) dest).
Proof.
  intros H1 H2. unfold copy_deep_to.
  destruct (fill_spec coord_default (length dest) (fun i => idx src (s + i)) (fun i => nth (s + i) src coord_default)
    len d dest) as (r & E & L & N); auto.
  { intros i Hi. apply idx_nth. lia. }
  rewrite E. f_equal. apply nth_ext_eq with coord_default.
  { rewrite L, !app_length, !firstn_length, !skipn_length. lia. }
  intros i Hi. rewrite N.
  assert (length (firstn d dest) = d) as L1 by (rewrite firstn_length; lia).
  assert (length (firstn len (skipn s src)) = len) as L2 by (rewrite firstn_length, skipn_length; lia).
  destruct (Nat.leb_spec d i), (Nat.ltb_spec i (d + len)); cbn [andb].
  - rewrite app_nth2, L1 by lia. rewrite app_nth1 by lia.
    rewrite nth_firstn_aux, nth_skipn_aux by lia. reflexivity.
  - rewrite app_nth2, L1 by lia. rewrite app_nth2, L2 by lia.
    rewrite nth_skipn_aux. f_equal. lia.
  - rewrite app_nth1 by lia. symmetry. apply nth_firstn_aux. lia.
  - lia.
Qed.

(** ** C17 scrolling *)
Lemma scroll_open cs i : (i <= length cs)%nat ->
  scroll_index_ensure_ring cs i false = Ok (rotation i cs).
Proof.
  intros H. unfold scroll_index_ensure_ring, rotation. destruct (Nat.leb_spec i 0) as [Z0|P].
  { replace i with 0%nat by lia. cbn. now rewrite app_nil_r. }
  cbn [negb]. rewrite usub_ok by assumption. cbn [bind].
  set (n := length cs) in *. set (len := (n - i)%nat).
  destruct (fill_spec coord_default n (fun k => idx cs (i + k)) (fun k => nth (i + k) cs coord_default)
     len 0 (repeat coord_default n)) as (r1 & E1 & L1 & N1); auto; try apply repeat_length; try (unfold len; lia).
  { intros k Hk. apply idx_nth. fold n. unfold len in *. lia. }
  cbn [Nat.add] in E1. rewrite E1. cbn [bind].
  destruct (fill_spec coord_default n (fun k => idx cs k) (fun k => nth k cs coord_default)
     i len r1) as (r2 & E2 & L2 & N2); auto; try (unfold len; lia).
  { intros k Hk. apply idx_nth. fold n. lia. }
  rewrite E2. f_equal. apply nth_ext_eq with coord_default.
  { rewrite L2, app_length, skipn_length, firstn_length. fold n. lia. }
  intros j Hj. rewrite N2, N1. assert (length (skipn i cs) = len) as Ls by (rewrite skipn_length; reflexivity).
  unfold len in *.
  destruct (Nat.leb_spec (n - i) j), (Nat.ltb_spec j (n - i + i)); cbn [andb]; try lia.
  - rewrite app_nth2, Ls by lia. rewrite nth_firstn_aux by lia. reflexivity.
  - destruct (Nat.leb_spec 0 j), (Nat.ltb_spec j (0 + (n - i))); cbn [andb]; try lia.
    rewrite app_nth1, nth_skipn_aux by lia. f_equal. lia.
Qed.
Lemma scroll_open_panic cs i : (length cs < i)%nat -> scroll_index_ensure_ring cs i false = Panic.
Proof.
  intros H. unfold scroll_index_ensure_ring. destruct (Nat.leb_spec i 0); [lia|]. cbn [negb].
  rewrite usub_panic by assumption. reflexivity.
Qed.
(** Ring version: rotates the vertices without the closing one, then closes. *)
Lemma scroll_ring body p i : (0 < i)%nat -> (body <> [])%list ->
  scroll_index_ensure_ring (body ++ [p]) i true =
  Ok (rotation (i mod length body) body ++ [nth (i mod length body) body coord_default]).
Proof.
  intros Hi NE. unfold scroll_index_ensure_ring, rotation. destruct (Nat.leb_spec i 0) as [Z0|_]; [lia|].
  cbn [negb]. rewrite app_length. cbn [length]. set (m := length body).
  assert (0 < m)%nat as Hm by (unfold m; destruct body; [congruence|cbn; lia]).
  rewrite usub_ok by lia. replace (m + 1 - 1)%nat with m by lia. cbn [bind].
  set (k := (i mod m)%nat). assert (k < m)%nat as Hk by (apply Nat.mod_upper_bound; lia).
  destruct (fill_spec coord_default (m + 1) (fun j => idx (body ++ [p]) ((i + j) mod m))
     (fun j => nth ((i + j) mod m) body coord_default) m 0 (repeat coord_default (m + 1)))
     as (r1 & E1 & L1 & N1); auto; try apply repeat_length; try lia.
  { intros j Hj. assert ((i + j) mod m < m)%nat by (apply Nat.mod_upper_bound; lia).
    rewrite (idx_nth _ _ coord_default) by (rewrite app_length; cbn [length]; fold m; lia).
    rewrite app_nth1 by (fold m; lia). reflexivity. }
  cbn [Nat.add] in E1. rewrite E1. cbn [bind].
  rewrite (idx_nth _ _ coord_default) by lia. cbn [bind]. rewrite N1.
  destruct (Nat.leb_spec 0 0), (Nat.ltb_spec 0 (0 + m)); cbn [andb]; try lia.
  rewrite Nat.sub_diag, Nat.add_0_r. fold k.
  rewrite upd_ok by lia. rewrite (skipn_all2 r1) by lia. f_equal. f_equal.
  apply nth_ext_eq with coord_default.
  { rewrite firstn_length, app_length, skipn_length, firstn_length. fold m. lia. }
  intros j Hj. rewrite firstn_length in Hj. rewrite nth_firstn_aux by lia. rewrite N1.
  destruct (Nat.leb_spec 0 j), (Nat.ltb_spec j (0 + m)); cbn [andb]; try lia.
  replace ((i + (j - 0)) mod m)%nat with ((k + j) mod m)%nat.
  2:{ unfold k. rewrite Nat.add_mod_idemp_l by lia. f_equal. lia. }
  assert (length (skipn k body) = (m - k)%nat) as Ls by (rewrite skipn_length; reflexivity).
  destruct (Nat.lt_ge_cases (k + j) m) as [C|C].
  - rewrite Nat.mod_small by lia. rewrite app_nth1, nth_skipn_aux by lia. reflexivity.
  - replace (k + j)%nat with ((k + j - m) + 1 * m)%nat by lia. rewrite Nat.mod_add, Nat.mod_small by lia.
    rewrite app_nth2, Ls, nth_firstn_aux by lia. f_equal. lia.
Qed.
Lemma scroll_ring_zero cs b : scroll_index_ensure_ring cs 0 b = Ok cs.
Proof. reflexivity. Qed.
Lemma arr_is_ring_spec cs : exists b, arr_is_ring cs = Ok b /\
  (b = true <-> (4 <= length cs)%nat /\ closed cs).
Proof.
  unfold arr_is_ring, closed. destruct (Nat.ltb_spec (length cs) 4).
  - exists false. split; auto. split; [discriminate|lia].
  - rewrite (idx_nth _ _ coord_default) by lia. cbn [bind]. rewrite usub_ok by lia. cbn [bind].
    rewrite (idx_nth _ _ coord_default) by lia. cbn [bind].
    assert (hd_error cs = Some (nth 0 cs coord_default)) as H1 by (destruct cs; [cbn in *; lia|reflexivity]).
    assert (hd_error (rev cs) = Some (nth (length cs - 1) cs coord_default)) as H2.
    { assert (length cs = length (rev cs)) as Lr by now rewrite rev_length.
      rewrite <- (rev_involutive cs) at 3. rewrite rev_nth by lia. rewrite <- Lr.
      replace (length cs - S (length cs - 1))%nat with 0%nat by lia.
      destruct (rev cs); [cbn in *; lia|reflexivity]. }
    destruct (equals_2d (nth 0 cs coord_default) (nth (length cs - 1) cs coord_default)) eqn:E; cbn [negb].
    + exists true. split; auto. split; auto. intros _. split; [assumption|].
      apply equals_2d_eq in E. eexists _, _. split; [exact H1|split; [exact H2|exact E]].
    + exists false. split; auto. split; [discriminate|]. intros (_ & a & b & A & B & C).
      rewrite H1 in A. rewrite H2 in B. inversion A; inversion B; subst. apply equals_2d_eq in C. congruence.
Qed.
Lemma rotation_perm i l : Permutation l (rotation i l).
Proof. unfold rotation. rewrite <- (firstn_skipn i l) at 1. apply Permutation_app_comm. Qed.
Lemma rotation_hd i l d : (i < length l)%nat -> hd_error (rotation i l) = Some (nth i l d).
Proof.
  intros H. unfold rotation. destruct (skipn i l) as [|a t] eqn:E.
  - pose proof (skipn_length i l). rewrite E in *. cbn in *. lia.
  - cbn. f_equal. pose proof (nth_skipn_aux l i 0 d) as N. rewrite E, Nat.add_0_r in N. exact N.
Qed.

(** ** C18 direction *)
Lemma forR_scan {R} (f : nat -> res (option R)) n lo :
  (forall i, (lo <= i < lo + n)%nat -> exists o, f i = Ok o) ->
  exists o, forR n lo tt (fun i _ => o <- f i ;; match o with Some r => Ok (inr r) | None => Ok (inl tt) end) = Ok o /\
    (forall r, o = inr r -> exists i, (lo <= i < lo + n)%nat /\ f i = Ok (Some r) /\
                                    forall j, (lo <= j < i)%nat -> f j = Ok None) /\
    (o = inl tt -> forall i, (lo <= i < lo + n)%nat -> f i = Ok None).
Proof.
  revert lo. induction n as [|n IH]; intros lo H; cbn [forR].
  - exists (inl tt). repeat split; try discriminate. intros; lia.
  - destruct (H lo) as (o & E); [lia|]. rewrite E. cbn [bind]. destruct o as [r|].
    + exists (inr r). split; [reflexivity|]. split; [|discriminate].
      intros r' Er. inversion Er; subst. exists lo. repeat split; auto; try lia.
    + cbn [bind]. destruct (IH (S lo)) as (o & E2 & P1 & P2).
      { intros i Hi. apply H. lia. }
      exists o. split; [assumption|]. split.
      * intros r Er. destruct (P1 r Er) as (i & Hi & Fi & Mi). exists i. repeat split; auto; try lia.
        intros j Hj. destruct (Nat.eq_dec j lo) as [->|]; auto. apply Mi. lia.
      * intros Eo i Hi. destruct (Nat.eq_dec i lo) as [->|]; auto. apply P2; auto. lia.
Qed.

Lemma arr_compare_first l1 l2 d : length l1 = length l2 ->
  forall i, (i < length l1)%nat -> (forall j, (j < i)%nat -> compare_to (nth j l1 d) (nth j l2 d) = 0) ->
  compare_to (nth i l1 d) (nth i l2 d) <> 0 -> arr_compare l1 l2 = compare_to (nth i l1 d) (nth i l2 d).
Proof.
  revert l2. induction l1 as [|a l1 IH]; intros [|b l2] L i Hi H N; cbn in L, Hi; try lia.
  cbn [arr_compare]. destruct i as [|i]; cbn [nth] in *.
  - destruct (Z.eqb_spec (compare_to a b) 0); [contradiction|reflexivity].
  - pose proof (H 0%nat ltac:(lia)) as H0. cbn in H0. rewrite H0. cbn. apply IH; auto; try lia.
    intros j Hj. apply (H (S j)). lia.
Qed.
Lemma arr_compare_none l1 l2 d : length l1 = length l2 ->
  (forall j, (j < length l1)%nat -> compare_to (nth j l1 d) (nth j l2 d) = 0) -> arr_compare l1 l2 = 0.
Proof.
  revert l2. induction l1 as [|a l1 IH]; intros [|b l2] L H; cbn in L; try lia; auto.
  cbn [arr_compare]. pose proof (H 0%nat ltac:(cbn; lia)) as H0. cbn in H0. rewrite H0. cbn. apply IH; auto.
  intros j Hj. apply (H (S j)). cbn. lia.
Qed.

Lemma increasing_direction_spec pts :
  increasing_direction pts =
  Ok (let c := arr_compare pts (rev pts) in if Z.eqb c 0 then 1 else c).
Proof.
  unfold increasing_direction. set (n := length pts).
  set (f := fun i => let c := compare_to (nth i pts coord_default) (nth i (rev pts) coord_default) in
                     Ok (if Z.eqb c 0 then None else Some c)).
  rewrite (forR_ext n 0 tt _ (fun i _ => o <- f i ;; match o with Some r => Ok (inr r) | None => Ok (inl tt) end)).
  2:{ intros i s Hi. rewrite usub_ok by lia. cbn [bind]. rewrite usub_ok by lia. cbn [bind].
      rewrite (idx_nth _ _ coord_default) by (fold n; lia). cbn [bind].
      rewrite (idx_nth _ _ coord_default) by (fold n; lia). cbn [bind].
      unfold f. cbn [bind]. rewrite rev_nth by (fold n; lia). fold n.
      replace (n - S i)%nat with (n - 1 - i)%nat by lia.
      destruct (Z.eqb (compare_to (nth i pts coord_default) (nth (n - 1 - i) pts coord_default)) 0); reflexivity. }
  destruct (forR_scan f n 0) as (o & E & P1 & P2). { intros i Hi. unfold f. eauto. }
  rewrite E. cbn [bind]. destruct o as [[]|c].
  - specialize (P2 eq_refl).
    rewrite (arr_compare_none pts (rev pts) coord_default); auto.
    { now rewrite rev_length. }
    intros j Hj. specialize (P2 j ltac:(lia)). unfold f in P2.
    destruct (Z.eqb_spec (compare_to (nth j pts coord_default) (nth j (rev pts) coord_default)) 0); auto. discriminate.
  - destruct (P1 c eq_refl) as (i & Hi & Fi & Mi). unfold f in Fi.
    destruct (Z.eqb_spec (compare_to (nth i pts coord_default) (nth i (rev pts) coord_default)) 0) as [|NE]; [discriminate|].
    inversion Fi as [Ec]. rewrite Ec.
    rewrite (arr_compare_first pts (rev pts) coord_default) with (i := i); auto; try lia.
    + rewrite Ec in *. cbv zeta. destruct (Z.eqb_spec c 0); [contradiction|reflexivity].
    + now rewrite rev_length.
    + intros j Hj. specialize (Mi j ltac:(lia)). unfold f in Mi.
      destruct (Z.eqb_spec (compare_to (nth j pts coord_default) (nth j (rev pts) coord_default)) 0); auto. discriminate.
Qed.
Lemma palindrome_zero pts : Forall nn_xy pts -> (arr_compare pts (rev pts) = 0 <-> palindrome pts).
Proof. intros F. apply arr_compare_zero; auto. now apply Forall_rev. Qed.

(** [is_equal_reversed] *)
Lemma is_equal_reversed_spec p1 p2 : length p1 = length p2 -> Forall nn_xy p1 -> Forall nn_xy p2 ->
  exists b, is_equal_reversed p1 p2 = Ok b /\ (b = true <-> same_pts p1 (rev p2)).
Proof.
  intros L F1 F2. unfold is_equal_reversed. set (n := length p1) in *.
  set (f := fun i => let c := compare_to (nth i p1 coord_default) (nth i (rev p2) coord_default) in
                     Ok (if Z.eqb c 0 then None else Some false)).
  rewrite (forR_ext n 0 tt _ (fun i _ => o <- f i ;; match o with Some r => Ok (inr r) | None => Ok (inl tt) end)).
  2:{ intros i s Hi. rewrite (idx_nth _ _ coord_default) by (fold n; lia). cbn [bind].
      rewrite usub_ok by lia. cbn [bind]. rewrite usub_ok by lia. cbn [bind].
      rewrite (idx_nth _ _ coord_default) by lia. cbn [bind].
      unfold f. cbn [bind]. rewrite rev_nth by lia. rewrite <- L.
      replace (n - S i)%nat with (n - i - 1)%nat by lia.
      destruct (Z.eqb (compare_to (nth i p1 coord_default) (nth (n - i - 1) p2 coord_default)) 0); reflexivity. }
  destruct (forR_scan f n 0) as (o & E & P1 & P2). { intros i Hi. unfold f. eauto. }
  rewrite E. cbn [bind].
  assert (Forall nn_xy (rev p2)) as F2' by now apply Forall_rev.
  destruct o as [[]|c].
  - exists true. split; auto. split; auto. intros _. specialize (P2 eq_refl).
    apply arr_compare_zero; auto.
    rewrite (arr_compare_none p1 (rev p2) coord_default); auto.
    { rewrite rev_length. fold n. lia. }
    intros j Hj. specialize (P2 j ltac:(lia)). unfold f in P2.
    destruct (Z.eqb_spec (compare_to (nth j p1 coord_default) (nth j (rev p2) coord_default)) 0); auto. discriminate.
  - destruct (P1 c eq_refl) as (i & Hi & Fi & Mi). unfold f in Fi.
    destruct (Z.eqb_spec (compare_to (nth i p1 coord_default) (nth i (rev p2) coord_default)) 0) as [|NE]; [discriminate|].
    exists c. inversion Fi as [Ec]. split; auto. split; [discriminate|].
    intros S. apply arr_compare_zero in S; auto. exfalso. apply NE.
    rewrite <- S. symmetry. apply arr_compare_first; auto; try lia.
    + rewrite rev_length. fold n. lia.
    + intros j Hj. specialize (Mi j ltac:(lia)). unfold f in Mi.
      destruct (Z.eqb_spec (compare_to (nth j p1 coord_default) (nth j (rev p2) coord_default)) 0); auto. discriminate.
Qed.
Lemma is_equal_reversed_panic p1 p2 : (length p2 < length p1)%nat -> is_equal_reversed p1 p2 = Panic.
Proof.
  intros H. unfold is_equal_reversed. destruct (length p1) as [|n] eqn:L; [lia|].
  cbn [forR]. rewrite (idx_nth _ _ coord_default) by lia. cbn [bind]. rewrite usub_ok by lia. cbn [bind].
  rewrite usub_ok by lia. cbn [bind]. rewrite idx_panic by lia. reflexivity.
Qed.

(** ** C19 extract *)
Lemma extract_by_only_empty u pts s e r : extract_by u pts s e = Ok r -> r = [].
Proof.
  unfold extract_by. destruct (u _); cbn [bind]; [|discriminate].
  destruct (u _); cbn [bind]; [|discriminate].
  destruct (Z.eqb _ 0); [congruence|].
  destruct (Z.to_nat _) as [|k]; cbn [forN]; [congruence|].
  destruct (idx pts _); cbn [bind]; [|discriminate]. cbn. discriminate.
Qed.
Lemma i32_wrap_small z : -2147483648 <= z <= 2147483647 -> i32_wrap z = z.
Proof. intros H. unfold i32_wrap. rewrite Z.mod_small; lia. Qed.
Lemma usize_wrap_small z : 0 <= z <= usize_max -> usize_wrap z = z.
Proof. unfold usize_max. intros H. unfold usize_wrap. rewrite Z.mod_small; lia. Qed.
Lemma clamp_i32_id x a b : a <= x <= b -> clamp_i32 x a b = x.
Proof.
  intros H. unfold clamp_i32. destruct (Z.ltb_spec x a); [lia|].
  rewrite Z.gtb_ltb. destruct (Z.ltb_spec b x); [lia|reflexivity].
Qed.
Lemma clamp_i32_minmax x a b : a <= b -> clamp_i32 x a b = Z.max a (Z.min x b).
Proof.
  intros H. unfold clamp_i32. destruct (Z.ltb_spec x a); [lia|].
  rewrite Z.gtb_ltb. destruct (Z.ltb_spec b x); lia.
Qed.
Lemma extract_loop pts s n : (n <> 0)%nat ->
  forN n 0 [] (fun k (out : list Coordinate) => c <- idx pts (s + k)%nat ;; upd out (k + 1)%nat c) = Panic.
Proof. intros N. destruct n as [|n]; [contradiction|]. cbn [forN]. destruct (idx pts _); reflexivity. Qed.
Lemma usize_wrap_m1 : usize_wrap (-1) = 18446744073709551615.
Proof. reflexivity. Qed.
(** [extract] by the clamped ends [s] and [e]. *)
Lemma extract_chk pts s0 e0 : Z.of_nat (length pts) <= 2147483647 ->
  let n := Z.of_nat (length pts) in
  let s := Z.max 0 (Z.min (i32_wrap s0) n) in
  let e := Z.max (-1) (Z.min (i32_wrap e0) n) in
  extract_by usize_chk pts s0 e0 = if (e =? s) || (e =? -1) && (s =? n) && (0 <? n) then Ok [] else Panic.
Proof.
  intros L. cbv zeta. unfold extract_by. set (n := Z.of_nat (length pts)) in *. rewrite (i32_wrap_small n) by lia.
  rewrite !clamp_i32_minmax by lia. set (s := Z.max 0 (Z.min (i32_wrap s0) n)). set (e := Z.max (-1) (Z.min (i32_wrap e0) n)).
  assert (Hs : 0 <= s <= n) by lia. assert (He : -1 <= e <= n) by lia. clearbody s e.
  rewrite (usize_wrap_small s) by (unfold usize_max; lia).
  destruct (Z.eqb_spec e (-1)) as [->|E].
  - rewrite usize_wrap_m1. unfold usize_chk, usize_max.
    replace (0 <=? 18446744073709551615 - s) with true by lia.
    replace (18446744073709551615 - s <=? 18446744073709551615) with true by lia. cbn [andb bind].
    replace (0 <=? 18446744073709551615 - s + 1) with true by lia. cbn [andb].
    replace (-1 =? s) with false by lia. cbn [orb andb].
    destruct (Z.leb_spec (18446744073709551615 - s + 1) 18446744073709551615) as [P|P]; cbn [bind].
    + destruct (Z.leb_spec n s) as [Q|Q].
      * replace (18446744073709551615 <? s) with false by lia. replace (s =? n) with true by lia.
        replace (0 <? n) with true by lia. reflexivity.
      * replace (18446744073709551615 <? s) with false by lia. replace (s =? n) with false by lia. cbn [andb].
        replace (18446744073709551615 - s + 1 =? 0) with false by lia. apply extract_loop. lia.
    + replace s with 0 by lia. destruct (Z.eqb_spec 0 n); cbn [andb]; [|reflexivity]. now replace (0 <? n) with false by lia.
  - rewrite (usize_wrap_small e) by (unfold usize_max; lia). cbn [andb]. rewrite orb_false_r. unfold usize_chk, usize_max.
    destruct (Z.eqb_spec e s) as [->|D].
    + rewrite Z.sub_diag. cbn [Z.leb andb bind Z.add Z.to_nat forN Z.compare Pos.compare Pos.compare_cont]. 
      destruct (n <=? s); destruct (s <? s); reflexivity.
    + destruct (Z.leb_spec 0 (e - s)) as [P|P]; cbn [andb bind]; [|reflexivity].
      replace (e - s <=? 18446744073709551615) with true by lia. cbn [bind].
      replace (0 <=? e - s + 1) with true by lia. replace (e - s + 1 <=? 18446744073709551615) with true by lia. cbn [andb bind].
      replace (n <=? s) with false by lia. replace (e <? s) with false by lia. replace (e - s + 1 =? 0) with false by lia.
      apply extract_loop. lia.
Qed.
Lemma extract_wrap pts s0 e0 : Z.of_nat (length pts) <= 2147483647 ->
  let n := Z.of_nat (length pts) in
  let s := Z.max 0 (Z.min (i32_wrap s0) n) in
  let e := Z.max (-1) (Z.min (i32_wrap e0) n) in
  extract_by (fun z => Ok (usize_wrap z)) pts s0 e0 =
  if (s =? n) || (0 <=? e) && (e <=? s) || (e =? -1) && (s =? 0) then Ok [] else Panic.
Proof.
  intros L. cbv zeta. unfold extract_by. set (n := Z.of_nat (length pts)) in *. rewrite (i32_wrap_small n) by lia.
  rewrite !clamp_i32_minmax by lia. set (s := Z.max 0 (Z.min (i32_wrap s0) n)). set (e := Z.max (-1) (Z.min (i32_wrap e0) n)).
  assert (Hs : 0 <= s <= n) by lia. assert (He : -1 <= e <= n) by lia. clearbody s e.
  rewrite (usize_wrap_small s) by (unfold usize_max; lia). cbn [bind].
  destruct (Z.eqb_spec s n) as [Sn|Sn].
  { cbn [orb]. replace (n <=? s) with true by lia. destruct (_ <? s); reflexivity. }
  cbn [orb]. replace (n <=? s) with false by lia.
  destruct (Z.eqb_spec e (-1)) as [->|E].
  - rewrite usize_wrap_m1. replace (18446744073709551615 <? s) with false by lia. cbn [Z.leb Z.compare andb orb].
    rewrite (usize_wrap_small (18446744073709551615 - s)) by (unfold usize_max; lia).
    destruct (Z.eqb_spec s 0) as [->|S0]; [reflexivity|].
    rewrite usize_wrap_small by (unfold usize_max; lia).
    replace (18446744073709551615 - s + 1 =? 0) with false by lia. apply extract_loop. lia.
  - rewrite (usize_wrap_small e) by (unfold usize_max; lia). replace (0 <=? e) with true by lia. cbn [andb orb]. rewrite orb_false_r.
    destruct (Z.ltb_spec e s) as [P|P].
    + replace (e <=? s) with true by lia. reflexivity.
    + rewrite (usize_wrap_small (e - s)) by (unfold usize_max; lia). rewrite usize_wrap_small by (unfold usize_max; lia).
      replace (e - s + 1 =? 0) with false by lia. destruct (Z.leb_spec e s) as [Q|Q].
      * replace (Z.to_nat (e - s)) with 0%nat by lia. reflexivity.
      * apply extract_loop. lia.
Qed.

(** ** C21 searches *)
Lemma index_of_from_spec c l i : 0 <= i -> i + Z.of_nat (length l) <= 2147483648 ->
  (index_of_from c l i = -1 /\ forall p, In p l -> ~ pt_eq c p) \/
  (exists k p, index_of_from c l i = i + Z.of_nat k /\ nth_error l k = Some p /\ pt_eq c p /\
     forall j q, (j < k)%nat -> nth_error l j = Some q -> ~ pt_eq c q).
Proof.
  revert i. induction l as [|a l IH]; intros i Hi HL; cbn [index_of_from].
  - left. split; auto.
  - cbn [length] in HL. destruct (equals_2d c a) eqn:E.
    + right. exists 0%nat, a. apply equals_2d_eq in E. rewrite i32_wrap_small by lia.
      split; [lia|]. split; [reflexivity|]. split; [exact E|]. intros; lia.
    + apply equals_2d_false in E. destruct (IH (i + 1)) as [[H1 H2]|(k & p & H1 & H2 & H3 & H4)]; try lia.
      * left. split; auto. intros p [<-|I]; auto.
      * right. exists (S k), p. split; [lia|]. split; [assumption|]. split; [assumption|].
        intros [|j] q Hj Q; [cbn in Q; congruence|]. apply (H4 j); auto. lia.
Qed.
Lemma min_fold_spec cs m : Forall nn_xy cs -> nn_xy m ->
  exists r, fold_left (fun m c => match m with None => Some c
     | Some a => if Z.gtb (compare_to a c) 0 then Some c else m end) cs (Some m) = Some r /\
   (r = m \/ In r cs) /\ nn_xy r /\ compare_to r m <= 0 /\ forall p, In p cs -> compare_to r p <= 0.
Proof.
  revert m. induction cs as [|c cs IH]; intros m F N; cbn [fold_left].
  - exists m. rewrite compare_to_refl. repeat split; auto; try lia; try apply N. intros ? [].
  - inversion_clear F as [|? ? Nc F']. rewrite Z.gtb_ltb. destruct (Z.ltb_spec 0 (compare_to m c)) as [G|G].
    + destruct (IH c F' Nc) as (r & E & I & Nr & L & M). exists r. split; [exact E|].
      split. { cbn. destruct I as [->|I]; auto. }
      split; [exact Nr|]. pose proof (compare_to_antisym m c).
      split. { apply compare_to_trans with c; auto. lia. }
      intros p [<-|I']; auto.
    + destruct (IH m F' N) as (r & E & I & Nr & L & M). exists r. split; [exact E|].
      split. { cbn. destruct I as [->|I]; auto. }
      split; [exact Nr|]. split; [exact L|].
      intros p [<-|I']; auto. apply compare_to_trans with m; auto.
Qed.
Lemma min_coordinate_spec cs : Forall nn_xy cs ->
  match min_coordinate cs with
  | None => cs = []
  | Some m => In m cs /\ forall p, In p cs -> ~ pt_lt p m
  end.
Proof.
  destruct cs as [|c cs]; [reflexivity|]. intros F. inversion_clear F as [|? ? Nc F'].
  unfold min_coordinate. cbn [fold_left].
  destruct (min_fold_spec cs c F' Nc) as (r & -> & I & Nr & L & M).
  split. { destruct I as [->|I]; cbn; auto. }
  intros p Hp Lt.
  assert (nn_xy p) as Np. { destruct Hp as [<-|Hp]; auto. rewrite Forall_forall in F'. now apply F'. }
  apply compare_to_lt in Lt; auto. pose proof (compare_to_antisym r p).
  destruct Hp as [<-|Hp]; [lia|]. specialize (M p Hp). lia.
Qed.
Lemma pt_not_in_list_spec t pts : Z.of_nat (length pts) <= 2147483648 ->
  match pt_not_in_list t pts with
  | None => forall p, In p t -> exists q, In q pts /\ pt_eq p q
  | Some p => In p t /\ forall q, In q pts -> ~ pt_eq p q
  end.
Proof.
  intros L. induction t as [|a t IH]; cbn [pt_not_in_list]; [intros ? []|].
  unfold index_of. destruct (index_of_from_spec a pts 0) as [[H1 H2]|(k & p & H1 & H2 & H3 & H4)]; try lia.
  - rewrite H1. cbn. split; auto.
  - rewrite H1. destruct (Z.ltb_spec (0 + Z.of_nat k) 0); [lia|].
    destruct (pt_not_in_list t pts) as [q|].
    + destruct IH as [I1 I2]. split; auto. now right.
    + intros q [<-|I]; auto. exists p. split; auto. eapply nth_error_In; eauto.
Qed.
Lemma arr_intersection_spec cs env :
  arr_intersection cs env = filter (fun c => intersects_xy env (cx c) (cy c)) cs.
Proof.
  unfold arr_intersection.
  assert (forall v, fold_left (fun v c => if intersects_xy env (cx c) (cy c) then add_coordinate_repeated v c true else v) cs v
    = v ++ filter (fun c => intersects_xy env (cx c) (cy c)) cs) as H.
  { induction cs as [|c cs IH]; intros v; cbn [fold_left filter]; [now rewrite app_nil_r|].
    rewrite IH. destruct (intersects_xy env (cx c) (cy c)); [|reflexivity].
    unfold add_coordinate_repeated. cbn. now rewrite <- app_assoc. }
  apply H.
Qed.

(** ** C22 lists *)
Lemma add_list_true v cl : add_coordinate_list_repeated v cl true = v ++ cl.
Proof.
  unfold add_coordinate_list_repeated. revert v. induction cl as [|c cl IH]; intros v; cbn [fold_left].
  - now rewrite app_nil_r.
  - rewrite IH. unfold add_coordinate_repeated. cbn. now rewrite <- app_assoc.
Qed.
Lemma no_adjacent_app l1 l2 : no_adjacent_repeat (l1 ++ l2) <->
  no_adjacent_repeat l1 /\ no_adjacent_repeat l2 /\
  (forall a b, hd_error (rev l1) = Some a -> hd_error l2 = Some b -> ~ pt_eq a b).
Proof.
  induction l1 as [|x l1 IH]; cbn [app].
  - split; [intros H; repeat split; auto; try apply no_adjacent_nil; discriminate|tauto].
  - rewrite !no_adjacent_cons, IH. destruct l1 as [|y l1].
    + cbn. split.
      * intros [[A [B C]] D]. split; [split; [assumption|discriminate]|]. split; [assumption|].
        intros a b E. inversion E; subst. apply D.
      * intros [[A _] [B C]]. split; [repeat split; auto; discriminate|]. intros a Ha. now apply C.
    + assert (hd_error (rev (x :: y :: l1)) = hd_error (rev (y :: l1))) as ->.
      { cbn [rev]. destruct (rev l1); reflexivity. }
      cbn [app hd_error]. tauto.
Qed.
Lemma no_adjacent_one a : no_adjacent_repeat [a].
Proof. intros [|[|i]] x y H1 H2; discriminate. Qed.
Lemma last_cases (v : list Coordinate) : v = [] \/ exists w p, v = w ++ [p].
Proof. destruct v using rev_ind; [now left|right; eauto]. Qed.
Lemma add_repeated_clean v c : no_adjacent_repeat v -> no_adjacent_repeat (add_coordinate_repeated v c false).
Proof.
  intros H. destruct (last_cases v) as [->|(w & p & ->)].
  - apply no_adjacent_one.
  - rewrite add_repeated_snoc. destruct (equals_2d p c) eqn:E; auto.
    apply no_adjacent_app. repeat split; auto using no_adjacent_one.
    intros a b Ha Hb. rewrite rev_app_distr in Ha. cbn in Ha, Hb. inversion Ha; inversion Hb; subst.
    now apply equals_2d_false.
Qed.
Lemma add_list_clean v cl : no_adjacent_repeat v -> no_adjacent_repeat (add_coordinate_list_repeated v cl false).
Proof.
  unfold add_coordinate_list_repeated. revert v. induction cl as [|c cl IH]; intros v H; cbn; auto.
  apply IH. now apply add_repeated_clean.
Qed.
Lemma insert_clean v i c v' : no_adjacent_repeat v -> add_index_coordinate_repeated v i c false = Ok v' ->
  no_adjacent_repeat v'.
Proof.
  intros H E. unfold add_index_coordinate_repeated, vec_insert in E. cbn [negb andb] in E.
  destruct (Nat.ltb_spec 0 (length v)) as [P|P].
  2:{ destruct v; [|cbn in P; lia]. destruct i; cbn in E; [|discriminate]. inversion E. apply no_adjacent_one. }
  cbn [andb] in E.
  match type of E with (if ?b then _ else _) = _ => destruct b eqn:B end; [inversion E; now subst|].
  apply orb_false_iff in B. destruct B as [B1 B2].
  destruct (Nat.leb_spec i (length v)) as [Li|]; [|discriminate]. inversion E; subst v'; clear E.
  rewrite <- (firstn_skipn i v) in H. apply no_adjacent_app in H. destruct H as (H1 & H2 & H3).
  apply no_adjacent_app. split; [assumption|]. split.
  - apply no_adjacent_cons. split; [assumption|]. intros a Ha.
    assert (nth_error v i = Some a) as Na.
    { rewrite <- (firstn_skipn i v). rewrite nth_error_app2 by (rewrite firstn_length; lia).
      rewrite firstn_length_le, Nat.sub_diag by lia. now destruct (skipn i v). }
    destruct (Nat.ltb_spec i (length v)) as [L|L].
    + rewrite Na in B2. apply equals_2d_false in B2. intros C. apply B2. now apply pt_eq_sym.
    + apply nth_error_None in L. congruence.
  - intros a b Ha Hb. cbn in Hb. inversion Hb; subst b.
    destruct (Nat.ltb_spec 0 i) as [L|L].
    + assert (nth_error v (i - 1) = Some a) as Na.
      { destruct (last_cases (firstn i v)) as [E0|(w & p & E0)].
        - rewrite E0 in Ha. discriminate.
        - rewrite E0, rev_app_distr in Ha. cbn in Ha. inversion Ha; subst p.
          pose proof (f_equal (@length Coordinate) E0) as Lw. rewrite firstn_length_le, app_length in Lw by lia. cbn in Lw.
          rewrite <- (firstn_skipn i v), E0, <- app_assoc. rewrite nth_error_app2 by lia.
          replace (i - 1 - length w)%nat with 0%nat by lia. reflexivity. }
      rewrite Na in B1. now apply equals_2d_false.
    + replace i with 0%nat in Ha by lia. discriminate.
Qed.
Lemma close_clean v : no_adjacent_repeat v -> no_adjacent_repeat (list_close_ring v).
Proof.
  intros H. unfold list_close_ring. destruct (Nat.ltb 0 (length v)); auto.
  destruct (nth_error v 0); auto. now apply add_repeated_clean.
Qed.
Lemma list_ops_clean os v v' : no_adjacent_repeat v -> apply_list_ops v os = Ok v' -> no_adjacent_repeat v'.
Proof.
  revert v. induction os as [|o os IH]; intros v H E; cbn in E; [inversion E; now subst|].
  destruct (apply_list_op v o) as [v1|] eqn:E1; [|discriminate].
  apply (IH v1); auto. destruct o; cbn in E1; try (inversion E1; subst v1; clear E1).
  - now apply add_repeated_clean.
  - eapply insert_clean; eauto.
  - now apply add_list_clean.
  - now apply close_clean.
Qed.
Lemma close_ring_closed v a t : v = a :: t -> nn_xy a ->
  closed (list_close_ring v) /\ (list_close_ring v = v \/ list_close_ring v = v ++ [a]).
Proof.
  intros -> N. unfold list_close_ring. cbn [length Nat.ltb Nat.leb nth_error].
  destruct (last_cases (a :: t)) as [E|(w & p & E)]; [discriminate|].
  rewrite E. rewrite add_repeated_snoc.
  assert (forall u, hd_error ((w ++ [p]) ++ u) = Some a) as H by (intros u; rewrite <- E; reflexivity).
  destruct (equals_2d p a) eqn:Q.
  - split; auto. exists a, p. apply equals_2d_eq in Q. split; [rewrite <- E; reflexivity|].
    rewrite rev_app_distr. cbn. split; auto. now apply pt_eq_sym.
  - split; auto. exists a, a. split; [apply H|]. rewrite rev_app_distr. cbn. split; auto. now apply pt_eq_refl.
Qed.

(** ** C23 *)
Lemma add_backward_panics v cl r : add_coordinate_list_repeated_direction v cl r false = Panic.
Proof. unfold add_coordinate_list_repeated_direction. rewrite idx_panic by lia. reflexivity. Qed.
Lemma add_start_end_up fuel v cl rep s e ck : (s <= e)%nat -> (e <= length cl)%nat -> (e - s <= fuel)%nat ->
  add_start_end ck fuel v cl rep false s e =
  Some (Ok (add_coordinate_list_repeated v (firstn (e - s) (skipn s cl)) rep)).
Proof.
  revert v s. induction fuel as [|f IH]; intros v s H1 H2 H3; cbn [add_start_end]; destruct (Nat.eqb_spec s e) as [->|NE]; try lia.
  - rewrite Nat.sub_diag. reflexivity.
  - rewrite Nat.sub_diag. reflexivity.
  - rewrite (idx_nth _ _ coord_default) by lia. rewrite IH by lia. do 2 f_equal.
    replace (e - s)%nat with (S (e - S s)) by lia.
    destruct (skipn s cl) as [|a t] eqn:E.
    { pose proof (skipn_length s cl) as X. rewrite E in X. cbn in X. lia. }
    assert (nth s cl coord_default = a) as ->.
    { pose proof (nth_skipn_aux cl s 0 coord_default) as X. rewrite E, Nat.add_0_r in X. now symmetry. }
    assert (skipn (S s) cl = t) as ->.
    { clear - E. revert s E. induction cl as [|x cl IHc]; intros [|s] E; cbn in *; try discriminate.
      - now inversion E.
      - now apply IHc. }
    reflexivity.
Qed.
Lemma add_start_end_down_unchecked fuel v cl s e : (e < s)%nat -> (s < length cl)%nat -> (s - e <= fuel)%nat ->
  add_start_end false fuel v cl true true s e =
  Some (Ok (v ++ rev (firstn (s - e) (skipn (S e) cl)))).
Proof.
  revert v s. induction fuel as [|f IH]; intros v s H1 H2 H3; cbn [add_start_end]; destruct (Nat.eqb_spec s e) as [->|NE]; try lia.
  rewrite (idx_nth _ _ coord_default) by lia. destruct s as [|s]; [lia|].
  assert (add_coordinate_repeated v (nth (S s) cl coord_default) true = v ++ [nth (S s) cl coord_default]) as -> by reflexivity.
  assert (firstn (S s - e) (skipn (S e) cl) = firstn (s - e) (skipn (S e) cl) ++ [nth (S s) cl coord_default]) as ->.
  { replace (S s - e)%nat with (S (s - e)) by lia.
    replace (nth (S s) cl coord_default) with (nth (s - e) (skipn (S e) cl) coord_default)
      by (rewrite nth_skipn_aux; f_equal; lia).
    assert (s - e < length (skipn (S e) cl))%nat as B by (rewrite skipn_length; lia).
    revert B. generalize (s - e)%nat (skipn (S e) cl). clear.
    intros n. induction n as [|n IHn]; intros [|a l] B; cbn in *; try lia; auto. f_equal. apply IHn. lia. }
  rewrite rev_app_distr. cbn [rev app].
  destruct (Nat.eq_dec s e) as [->|NE2].
  - rewrite Nat.sub_diag. cbn. destruct f; cbn; now rewrite Nat.eqb_refl.
  - rewrite IH by lia. now rewrite <- app_assoc.
Qed.
Lemma add_start_end_down_checked fuel v cl rep s e : (e < s)%nat -> (1 <= fuel)%nat ->
  add_start_end true fuel v cl rep true s e = Some Panic.
Proof.
  intros H F. destruct fuel; [lia|]. cbn [add_start_end]. destruct (Nat.eqb_spec s e); [lia|].
  destruct (idx cl s); reflexivity.
Qed.
