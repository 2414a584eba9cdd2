(** Properties C25-C28: the DE-9IM intersection matrix. *)
From Coq Require Import ZArith Bool List String Ascii Lia Permutation ZifyBool.
From Verif Require Import Base IntersectionMatrix_model IntersectionMatrix_spec IntersectionMatrix_proofs.
Import ListNotations.
Open Scope string_scope.
Open Scope Z_scope.

(** ** C25 *)
Theorem C25_transpose_swaps_cells : forall m t, im_transpose m = Ok t ->
  forall r c, (r < 3)%nat -> (c < 3)%nat -> im_get t r c = im_get m c r.
Proof.
  intros m t H r c Hr Hc. rewrite transpose_spec in H. inversion H; subst t. destruct m.
  destruct r as [|[|[|r]]], c as [|[|[|c]]]; try lia; reflexivity.
Qed.
Theorem C25_transpose_involution : forall m, exists t, im_transpose m = Ok t /\ im_transpose t = Ok m.
Proof. intros m. exists (swapped m). rewrite !transpose_spec. destruct m. auto. Qed.
Theorem C25_within_contains : forall m t, im_transpose m = Ok t ->
  is_within t = is_contains m /\ is_contains t = is_within m.
Proof. intros m t H. rewrite transpose_spec in H. inversion H; subst. destruct m. auto. Qed.
Theorem C25_covers_covered_by : forall m t, im_transpose m = Ok t ->
  is_covers t = is_covered_by m /\ is_covered_by t = is_covers m.
Proof.
  intros m t H. rewrite transpose_spec in H. inversion H; subst. destruct m. unfold is_covers, is_covered_by; cbn.
  rewrite (orb_comm (is_true ii) _), <- !orb_assoc.
  split; destruct (is_true ii), (is_true ib), (is_true bi); reflexivity.
Qed.
Theorem C25_symmetric_predicates : forall m t a b, im_transpose m = Ok t ->
  is_disjoint t = is_disjoint m /\ is_intersects t = is_intersects m /\
  is_equals t b a = is_equals m a b /\ is_overlaps t b a = is_overlaps m a b /\
  is_touches t b a = is_touches m a b /\ is_crosses t b a = is_crosses m a b.
Proof.
  intros m t a b H. rewrite transpose_spec in H. inversion H; subst t. destruct m as [v1 v2 v3 v4 v5 v6 v7 v8 v9].
  assert (is_disjoint (swapped (mkIM v1 v2 v3 v4 v5 v6 v7 v8 v9)) = is_disjoint (mkIM v1 v2 v3 v4 v5 v6 v7 v8 v9)) as D.
  { unfold is_disjoint; cbn. destruct (v1 =? dFALSE), (v2 =? dFALSE), (v4 =? dFALSE); reflexivity. }
  split; [exact D|]. split; [unfold is_intersects; now rewrite D|].
  split; [|split; [|split]].
  - unfold is_equals; cbn. rewrite (Z.eqb_sym b a). destruct (a =? b); cbn; [|reflexivity].
    destruct (is_true v1), (v3 =? dFALSE), (v6 =? dFALSE), (v7 =? dFALSE), (v8 =? dFALSE); reflexivity.
  - unfold is_overlaps, dP, dL, dA; cbn.
    destruct (Z.eqb_spec a 0), (Z.eqb_spec b 0), (Z.eqb_spec a 1), (Z.eqb_spec b 1), (Z.eqb_spec a 2), (Z.eqb_spec b 2); try lia; cbn; try reflexivity;
    destruct (is_true v3), (is_true v7); rewrite ?andb_false_r, ?andb_true_r; reflexivity.
  - assert (forall x y, touches_ordered (swapped (mkIM v1 v2 v3 v4 v5 v6 v7 v8 v9)) x y = touches_ordered (mkIM v1 v2 v3 v4 v5 v6 v7 v8 v9) x y) as T.
    { intros x y. unfold touches_ordered; cbn. rewrite (orb_comm (is_true v4)). reflexivity. }
    unfold is_touches. rewrite !T, !Z.gtb_ltb.
    destruct (Z.ltb_spec a b), (Z.ltb_spec b a); try lia; auto. replace b with a by lia. reflexivity.
  - unfold is_crosses, dP, dL, dA; cbn.
    destruct (Z.eqb_spec a 0), (Z.eqb_spec b 0), (Z.eqb_spec a 1), (Z.eqb_spec b 1), (Z.eqb_spec a 2), (Z.eqb_spec b 2); try lia; reflexivity.
Qed.
Theorem C25_copy_is_equal : forall m, im_equals m (new_from_intersection_matrix m) = Ok true /\
  forall n, im_equals m n = Ok true <-> m = n.
Proof.
  assert (forall m n, im_equals m n = Ok true <-> m = n) as H.
  { intros m n. destruct m as [a b c d e f g h i], n as [a' b' c' d' e' f' g' h' i'].
    unfold im_equals. cbn [forR bind im_get ii ib ie IntersectionMatrix_model.bi bb be ei eb ee].
    split.
    - do 9 (match goal with |- context [?x =? ?y] => destruct (Z.eqb_spec x y); cbn [negb bind]; [|discriminate] end).
      intros _. congruence.
    - intros E. inversion E; subst. rewrite !Z.eqb_refl. reflexivity. }
  intros m. split; [|intros n; apply H]. apply H. now destruct m.
Qed.
Example C25_example : let m := mkIM 2 1 (-1) 1 0 (-1) 2 1 2 in
  is_within m = true /\ is_contains m = false /\
  exists t, im_transpose m = Ok t /\ is_contains t = true /\ is_within t = false.
Proof. cbn zeta. repeat split. eexists. repeat split. Qed.

(** ** C26 *)
Theorem C26_matches_string_is_cellwise : forall m p,
  exists b, matches_string m (str p) = Ok b /\ (b = true <-> fits m p).
Proof. exact matches_string_fits. Qed.
(** For a string of arbitrary characters: true only on nine pattern symbols. *)
Theorem C26_matches_any_string : forall m s,
  exists b, matches_string m s = Ok b /\
  (b = true <-> Forall2 (fun v c => exists a, c = Z.of_nat (nat_of_ascii a) /\ sat v a) (cells m) s).
Proof.
  intros m s. destruct (matches_string_codes m s) as (b & E & H). exists b. split; auto. rewrite H.
  unfold fits_codes. generalize (cells m). intros l. clear. revert s.
  induction l as [|v l IH]; intros [|c s]; split; intros F; inversion F; subst; constructor; try (now apply IH); now apply sat_char'.
Qed.
Theorem C26_disjoint : forall m,
  (is_disjoint m = true <-> fits m "FF*FF****") /\ (is_intersects m = negb (is_disjoint m)).
Proof.
  intros m. split; [|reflexivity]. fits_simpl. unfold is_disjoint, dFALSE. rewrite !andb_true_iff, !Z.eqb_eq. tauto.
Qed.
Theorem C26_intersects : forall m, Forall proper (cells m) ->
  (is_intersects m = true <-> fits_one m ["T********"; "*T*******"; "***T*****"; "****T****"]).
Proof.
  intros m F. rewrite !fits_one_cons, fits_one_nil. fits_simpl.
  unfold is_intersects, is_disjoint, dFALSE. unfold cells in F.
  do 5 (inversion F as [|? ? ? F']; subst; clear F; rename F' into F).
  assert (forall v, proper v -> (is_true v = true <-> v <> -1)) as T.
  { intros v [A B]. rewrite is_true_iff. lia. }
  rewrite !T by assumption. rewrite negb_true_iff, !andb_false_iff, !Z.eqb_neq. tauto.
Qed.
Theorem C26_within_contains : forall m,
  (is_within m = true <-> fits m "T*F**F***") /\ (is_contains m = true <-> fits m "T*****FF*").
Proof.
  intros m. split; fits_simpl; unfold is_within, is_contains, dFALSE; rewrite !andb_true_iff, !Z.eqb_eq; tauto.
Qed.
Theorem C26_covers_covered_by : forall m,
  (is_covers m = true <-> fits_one m ["T*****FF*"; "*T****FF*"; "***T**FF*"; "****T*FF*"]) /\
  (is_covered_by m = true <-> fits_one m ["T*F**F***"; "*TF**F***"; "**FT*F***"; "**F*TF***"]).
Proof.
  intros m. split; rewrite !fits_one_cons, fits_one_nil; fits_simpl; unfold is_covers, is_covered_by, dFALSE;
    rewrite !andb_true_iff, !orb_true_iff, !Z.eqb_eq; tauto.
Qed.
Theorem C26_equals : forall m a b, is_equals m a b = true <-> a = b /\ fits m "T*F**FFF*".
Proof.
  intros m a b. fits_simpl. unfold is_equals, dFALSE. destruct (Z.eqb_spec a b); cbn [negb].
  - rewrite !andb_true_iff, !Z.eqb_eq. tauto.
  - split; [discriminate|tauto].
Qed.
Theorem C26_touches : forall m a b, 0 <= a <= 2 -> 0 <= b <= 2 ->
  (is_touches m a b = true <-> ~ (a = 0 /\ b = 0) /\ fits_one m ["FT*******"; "F**T*****"; "F***T****"]).
Proof.
  intros m a b Ha Hb. rewrite !fits_one_cons, fits_one_nil. fits_simpl.
  assert (a = 0 \/ a = 1 \/ a = 2) as A by lia. assert (b = 0 \/ b = 1 \/ b = 2) as B by lia.
  unfold is_touches, touches_ordered, dFALSE, dP, dL, dA.
  destruct A as [-> | [-> | ->]], B as [-> | [-> | ->]]; cbn [Z.eqb Z.gtb Z.compare Pos.compare Pos.compare_cont andb orb Pos.eqb];
    rewrite ?andb_true_iff, ?orb_true_iff, ?Z.eqb_eq; try (split; [discriminate|lia]).
  all: split; [intros H; split; [lia|tauto]|tauto].
Qed.
Theorem C26_crosses : forall m a b, 0 <= a <= 2 -> 0 <= b <= 2 ->
  (is_crosses m a b = true <->
   (a < b /\ fits m "T*T******") \/ (b < a /\ fits m "T*****T**") \/ (a = 1 /\ b = 1 /\ fits m "0********")).
Proof.
  intros m a b Ha Hb. fits_simpl.
  assert (a = 0 \/ a = 1 \/ a = 2) as A by lia. assert (b = 0 \/ b = 1 \/ b = 2) as B by lia.
  unfold is_crosses, dP, dL, dA.
  destruct A as [-> | [-> | ->]], B as [-> | [-> | ->]]; cbn [Z.eqb andb orb Pos.eqb];
    rewrite ?andb_true_iff, ?Z.eqb_eq; intuition (try lia; try discriminate).
Qed.
Theorem C26_overlaps : forall m a b, 0 <= a <= 2 -> 0 <= b <= 2 ->
  (is_overlaps m a b = true <->
   a = b /\ ((a <> 1 /\ fits m "T*T***T**") \/ (a = 1 /\ fits m "1*T***T**"))).
Proof.
  intros m a b Ha Hb. fits_simpl.
  assert (a = 0 \/ a = 1 \/ a = 2) as A by lia. assert (b = 0 \/ b = 1 \/ b = 2) as B by lia.
  unfold is_overlaps, dP, dL, dA.
  destruct A as [-> | [-> | ->]], B as [-> | [-> | ->]]; cbn [Z.eqb andb orb Pos.eqb];
    rewrite ?andb_true_iff, ?Z.eqb_eq; intuition (try lia; try discriminate).
Qed.
(** Consequences among the predicates. *)
Theorem C26_implications : forall m a b,
  (is_equals m a b = true -> is_within m = true /\ is_contains m = true) /\
  (is_within m = true -> is_covered_by m = true) /\ (is_contains m = true -> is_covers m = true) /\
  (is_covers m = true -> is_intersects m = true) /\ (is_touches m a b = true -> is_intersects m = true) /\
  (is_within m = true -> is_touches m a b = false).
Proof.
  intros m a b.
  assert (forall v, is_true v = true -> (v =? -1) = false) as T.
  { intros v H. apply is_true_iff in H. apply Z.eqb_neq. lia. }
  unfold is_equals, is_within, is_contains, is_covered_by, is_covers, is_intersects, is_disjoint, is_touches, touches_ordered, dFALSE.
  split; [|split; [|split; [|split; [|split]]]].
  - destruct (Z.eqb_spec a b); cbn [negb]; [|discriminate]. rewrite !andb_true_iff. tauto.
  - rewrite !andb_true_iff, !orb_true_iff. tauto.
  - rewrite !andb_true_iff, !orb_true_iff. tauto.
  - rewrite !andb_true_iff, !orb_true_iff, negb_true_iff, !andb_false_iff.
    intros [[[[[H|H]|H]|H] _] _]; apply T in H; auto.
  - intros H. rewrite negb_true_iff, !andb_false_iff.
    destruct (a >? b); repeat match type of H with context [if ?c then _ else _] => destruct c end; try discriminate;
      rewrite !andb_true_iff, !orb_true_iff in H; destruct H as [_ [[H|H]|H]]; apply T in H; auto.
  - rewrite !andb_true_iff. intros [[H _] _]. apply T in H. rewrite H.
    destruct (a >? b); repeat match goal with |- context [if ?c then _ else _] => destruct c end; reflexivity.
Qed.
Example C26_example : let m := mkIM 2 1 2 1 0 1 2 1 2 in
  Forall proper (cells m) /\ fits m "T*T***T**" /\ is_overlaps m 2 2 = true /\ is_touches m 2 2 = false /\
  matches_string m (str "T*T***T**") = Ok true.
Proof.
  cbn zeta. split; [unfold cells; cbn; do 9 (apply Forall_cons; [unfold proper; lia|]); apply Forall_nil|]. split; [|repeat split].
  fits_simpl. repeat split.
Qed.

(** ** C27 *)
Theorem C27_print_parse : forall m, Forall valid_dim (cells m) ->
  exists s, im_to_string m = Ok s /\ Datatypes.length s = 9%nat /\ Forall2 sym_of (cells m) s /\
  new_with_elements s = Ok m /\ forall m0, set_string m0 s = Ok m.
Proof.
  intros m F.
  assert (exists s, Forall2 sym_of (cells m) s) as [s S].
  { induction F as [|v l V _ [s S]]; [exists []; constructor|].
    destruct (valid_dim_sym v V) as [c C]. exists (c :: s). now constructor. }
  assert (Forall2 reads s (cells m)) as R.
  { clear F. induction S; constructor; auto using sym_reads. }
  exists s. split; [now apply to_string_ok|]. split.
  { unfold cells in S. do 9 (inversion S as [|? ? ? ? _ S1]; subst; clear S; rename S1 into S). now inversion S. }
  split; [assumption|]. split; [now apply parse_nine|]. intros m0. now apply parse_nine.
Qed.
Theorem C27_parse_print : forall s m0, Forall (fun c => exists v, reads c v) s -> Datatypes.length s = 9%nat ->
  exists m, set_string m0 s = Ok m /\ Forall2 reads s (cells m) /\
  im_to_string m = Ok (map to_ascii_uppercase s).
Proof.
  intros s m0 F L.
  assert (exists vs, Forall2 reads s vs) as [vs V].
  { clear L. induction F as [|c l [v R] _ [vs V]]; [exists []; constructor|]. exists (v :: vs). now constructor. }
  assert (Datatypes.length vs = 9%nat) as L'.
  { rewrite <- L. clear -V. induction V; cbn; congruence. }
  do 9 (destruct vs as [|? vs]; [discriminate|]). destruct vs; [|discriminate].
  exists (mkIM z z0 z1 z2 z3 z4 z5 z6 z7). split; [now apply parse_nine|]. split; [exact V|].
  apply to_string_ok. clear L L' F. change (cells _) with [z; z0; z1; z2; z3; z4; z5; z6; z7].
  induction V as [|c v s' vs R _ IH]; cbn; constructor; auto.
  clear IH. unfold reads in R. cbn in R.
  repeat (destruct R as [R|R]; [inversion R; subst; apply sym_of_symbol; reflexivity|]). destruct R.
Qed.
(** Symbols beyond the ninth cell panic, other characters are skipped. *)
Theorem C27_parse_panics_iff : forall m s,
  set_string m s = Panic <-> exists k c v, (9 <= k)%nat /\ nth_error s k = Some c /\ reads c v.
Proof.
  intros m s. rewrite set_string_write.
  assert (forall t k m, (k <= 9)%nat -> write_syms m k t = Panic <->
    exists j c v, (9 <= k + j)%nat /\ nth_error t j = Some c /\ reads c v) as G.
  { induction t as [|c t IH]; intros k m0 Hk.
    - cbn. split; [discriminate|]. intros ([|j] & c & v & _ & E & _); discriminate.
    - destruct (Nat.eq_dec k 9) as [->|NE].
      + rewrite write_syms_beyond by lia. split.
        * destruct (forallb _ _) eqn:E; [discriminate|]. intros _. clear IH.
          assert (exists j c' v, nth_error (c :: t) j = Some c' /\ to_dimension_value c' = Some v) as (j & c' & v & N & R).
          { revert E. generalize (c :: t). intros l. induction l as [|x l IH]; cbn; [discriminate|].
            destruct (to_dimension_value x) eqn:T; [exists 0%nat, x; cbn; eauto|]. cbn. intros E.
            destruct (IH E) as (j & c' & v & N & R). exists (S j), c', v. auto. }
          exists j, c', v. split; [lia|]. split; auto. now apply reads_value.
        * intros (j & c' & v & _ & N & R). apply reads_value in R.
          destruct (forallb _ _) eqn:E; [|reflexivity]. rewrite forallb_forall in E.
          specialize (E c' (nth_error_In _ _ N)). rewrite R in E. discriminate.
      + assert (exists m', (match to_dimension_value c with Some v => im_set m0 (k / 3) (k mod 3) v | None => Ok m0 end) = Ok m') as [m' E].
        { destruct (to_dimension_value c); [|eauto]. assert (k < 9)%nat as K by lia. destruct m0.
          do 9 (destruct k as [|k]; [cbn; eauto|]). lia. }
        cbn [write_syms]. rewrite E. cbn [bind]. rewrite IH by lia. split.
        * intros (j & c' & v & H1 & H2 & H3). exists (S j), c', v. split; [lia|auto].
        * intros ([|j] & c' & v & H1 & H2 & H3); [lia|]. exists j, c', v. split; [lia|auto]. }
  specialize (G s 0%nat m ltac:(lia)). cbn in G. exact G.
Qed.
(** Matching one text against another: the first is read as a matrix, the
    second as a pattern. *)
Theorem C26_matches_texts : forall s p, Forall (fun c => exists v, reads c v) s -> Datatypes.length s = 9%nat ->
  exists vs b, Forall2 reads s vs /\ matches_string_string s p = Ok b /\
  (b = true <-> Forall2 (fun v c => exists a, c = Z.of_nat (nat_of_ascii a) /\ sat v a) vs p).
Proof.
  intros s p F L. destruct (C27_parse_print s im_default F L) as (m & E & R & _).
  destruct (C26_matches_any_string m p) as (b & B & H). exists (cells m), b. split; [exact R|]. split; [|exact H].
  unfold matches_string_string, new_with_elements. rewrite E. exact B.
Qed.
Example C26_texts_example : Forall (fun c => exists v, reads c v) (str "212f11*12") /\
  matches_string_string (str "212f11*12") (str "T*TF*1***") = Ok true /\ matches_string_string (str "212f11*12") (str "F********") = Ok false.
Proof.
  split; [|split; reflexivity]. repeat (apply Forall_cons; [first [exists 2; cbn; tauto|exists 1; cbn; tauto|exists (-1); cbn; tauto|exists (-3); cbn; tauto]|]).
  apply Forall_nil.
Qed.
Example C27_example : new_with_elements (str "f0f1t*F2T") = Ok (mkIM (-1) 0 (-1) 1 (-2) (-3) (-1) 2 (-2)) /\
  im_to_string (mkIM (-1) 0 (-1) 1 (-2) (-3) (-1) 2 (-2)) = Ok (str "F0F1T*F2T") /\
  new_with_elements (str "F0F1T*F2T0") = Panic.
Proof. repeat split. Qed.

(** ** C28 *)
Theorem C28_add_is_cellwise_max : forall m n, exists r, im_add m n = Ok r /\
  forall i j x y, im_get m i j = Ok x -> im_get n i j = Ok y -> im_get r i j = Ok (Z.max x y).
Proof.
  intros m n. exists (zip_max m n). split; [apply im_add_max|]. intros i j x y.
  destruct i as [|[|[|i]]], j as [|[|[|j]]]; cbn; intros H1 H2; inversion H1; inversion H2; reflexivity.
Qed.
Theorem C28_add_laws : forall a b c ab bc, im_add a b = Ok ab -> im_add b c = Ok bc ->
  im_add b a = Ok ab /\ im_add ab c = im_add a bc /\ im_add a a = Ok a /\ im_add ab b = Ok ab.
Proof.
  intros a b c ab bc H1 H2. rewrite im_add_max in H1, H2. inversion H1; inversion H2; subst. rewrite !im_add_max.
  destruct a, b, c. unfold zip_max; cbn. repeat split; f_equal; f_equal; lia.
Qed.
Theorem C28_add_grows : forall m n r, im_add m n = Ok r -> Forall2 Z.le (cells m) (cells r) /\ Forall2 Z.le (cells n) (cells r).
Proof.
  intros m n r H. rewrite im_add_max in H. inversion H; subst. destruct m, n. unfold cells, zip_max; cbn.
  split; repeat constructor; lia.
Qed.
(** After any history of [set_at_least], each cell is the maximum of its
    initial value and the values requested for it. *)
Theorem C28_update_history : forall us m,
  Forall (fun u => (fst (fst u) < 3)%nat /\ (snd (fst u) < 3)%nat) us ->
  exists m', run_updates m us = Ok m' /\
  forall r c x, im_get m r c = Ok x -> exists y, im_get m' r c = Ok y /\
    (x <= y /\ (forall v, In ((r, c), v) us -> v <= y)) /\ (y = x \/ In ((r, c), y) us).
Proof.
  intros us m F. destruct (run_updates_cell us m F) as (m' & E & H). exists m'. split; auto.
  intros r c x G. specialize (H r c x G).
  set (vs := map snd (filter (upd_here r c) us)) in *. exists (fold_right Z.max x vs). split; auto.
  assert (forall v, In v vs <-> In ((r, c), v) us) as I.
  { intros v. unfold vs. rewrite in_map_iff. split.
    - intros ([[r' c'] v'] & <- & I). apply filter_In in I. destruct I as [I U]. cbn in U.
      apply andb_true_iff in U. destruct U as [U1 U2]. apply Nat.eqb_eq in U1, U2. now subst.
    - intros I. exists ((r, c), v). split; auto. apply filter_In. split; auto. cbn. now rewrite !Nat.eqb_refl. }
  assert (x <= fold_right Z.max x vs /\ (forall v, In v vs -> v <= fold_right Z.max x vs) /\
          (fold_right Z.max x vs = x \/ In (fold_right Z.max x vs) vs)) as (A & B & C).
  { clear. induction vs as [|y vs (A & B & C)]; cbn; [split; [lia|]; split; [tauto|auto]|].
    split; [lia|]. split.
    - intros v [<-|I]; [lia|]. specialize (B v I). lia.
    - destruct (Z.max_spec y (fold_right Z.max x vs)) as [[_ ->]|[_ ->]]; [|auto]. destruct C; auto. }
  split; [split; [assumption|]|].
  - intros v Hv. apply B. now apply I.
  - destruct C; auto. right. now apply I.
Qed.
Theorem C28_update_order_irrelevant : forall us us' m,
  Forall (fun u => (fst (fst u) < 3)%nat /\ (snd (fst u) < 3)%nat) us -> Permutation us us' ->
  run_updates m us = run_updates m us'.
Proof.
  intros us us' m F P.
  assert (Forall (fun u : upd_t => (fst (fst u) < 3)%nat /\ (snd (fst u) < 3)%nat) us') as F' by (eapply Permutation_Forall; eauto).
  destruct (C28_update_history us m F) as (m1 & E1 & H1). destruct (C28_update_history us' m F') as (m2 & E2 & H2).
  rewrite E1, E2. f_equal. apply im_ext. intros r c Hr Hc. destruct (im_get_ok m r c Hr Hc) as [x G].
  destruct (H1 r c x G) as (y1 & G1 & (A1 & B1) & C1). destruct (H2 r c x G) as (y2 & G2 & (A2 & B2) & C2).
  rewrite G1, G2. f_equal.
  assert (y1 <= y2). { destruct C1 as [->|C1]; auto. apply B2. eapply Permutation_in; eauto. }
  assert (y2 <= y1). { destruct C2 as [->|C2]; auto. apply B1. eapply Permutation_in; [apply Permutation_sym|]; eauto. }
  lia.
Qed.
(** Raising the cells to the symbols of a string: each cell whose symbol is
    read becomes the larger of its value and the symbol's, the others stay. *)
Fixpoint raise_syms (m : IM) (k : nat) (s : rstring) : res IM :=
  match s with
  | [] => Ok m
  | ch :: t => m' <- match to_dimension_value ch with Some v => set_at_least m (k / 3) (k mod 3) v | None => Ok m end ;; raise_syms m' (S k) t
  end.
Lemma raise_syms_eq m s : set_at_least_string m s = raise_syms m 0 s.
Proof.
  unfold set_at_least_string. pose proof (str_len_ge s) as H.
  set (f := fun i m => match nth_error s i with
      | Some ch => match to_dimension_value ch with Some v => set_at_least m (i / 3) (i mod 3) v | None => Ok m end | None => Ok m end).
  assert (forall n k m, (List.length s <= k)%nat -> forN n k m f = Ok m) as End.
  { induction n as [|n IH]; intros k m' L; [reflexivity|]. cbn [forN]. unfold f at 1. rewrite (proj2 (nth_error_None s k) L). cbn [bind]. apply IH. lia. }
  assert (forall t pre m n, s = (pre ++ t)%list -> (List.length t <= n)%nat -> forN n (List.length pre) m f = raise_syms m (List.length pre) t) as G.
  { induction t as [|ch t IH]; intros pre m' n E L.
    - cbn [raise_syms]. apply End. rewrite E, app_nil_r. lia.
    - destruct n as [|n]; [cbn in L; lia|]. cbn [forN raise_syms]. unfold f at 1.
      assert (nth_error s (List.length pre) = Some ch) as ->.
      { rewrite E, nth_error_app2, Nat.sub_diag by lia. reflexivity. }
      destruct (match to_dimension_value ch with Some v => set_at_least m' (List.length pre / 3) (List.length pre mod 3) v | None => Ok m' end) as [m2|]; [|reflexivity].
      cbn [bind]. specialize (IH (pre ++ [ch])%list m2 n). rewrite app_length in IH. cbn [List.length] in IH.
      rewrite Nat.add_1_r in IH. apply IH; [rewrite <- app_assoc; assumption|cbn in L; lia]. }
  apply (G s [] m); auto.
Qed.
Lemma raise_one m k v : (k < 9)%nat -> exists m', set_at_least m (k / 3) (k mod 3) v = Ok m' /\
  forall j x, nth_error (cells m) j = Some x -> nth_error (cells m') j = Some (if (j =? k)%nat then Z.max x v else x).
Proof.
  intros H. assert (exists x, im_get m (k / 3) (k mod 3) = Ok x /\ nth_error (cells m) k = Some x) as (x & E & N).
  { destruct m. do 9 (destruct k as [|k]; [cbn; eauto|]). lia. }
  rewrite (set_at_least_eq m _ _ v x E). destruct m.
  do 9 (destruct k as [|k]; [cbn in *; eexists; split; [reflexivity|]; intros j y; do 9 (destruct j as [|j]; [cbn; congruence|]); destruct j; discriminate|]). lia.
Qed.
Theorem C28_raise_to_string : forall m s, (List.length s <= 9)%nat -> exists r, set_at_least_string m s = Ok r /\
  forall k x, nth_error (cells m) k = Some x ->
    (forall c v, nth_error s k = Some c -> reads c v -> nth_error (cells r) k = Some (Z.max x v)) /\
    ((forall c v, nth_error s k = Some c -> ~ reads c v) -> nth_error (cells r) k = Some x).
Proof.
  intros m s L. rewrite raise_syms_eq.
  assert (forall t k m, (k + List.length t <= 9)%nat -> exists r, raise_syms m k t = Ok r /\
    forall j x, nth_error (cells m) j = Some x -> nth_error (cells r) j = Some
      (if (j <? k)%nat then x else match nth_error t (j - k) with Some c => match to_dimension_value c with Some v => Z.max x v | None => x end | None => x end)) as G.
  { induction t as [|c t IH]; intros k m0 Hk; cbn [raise_syms].
    - exists m0. split; [reflexivity|]. intros j x E. rewrite E. destruct (j <? k)%nat; [reflexivity|]. destruct (j - k)%nat; reflexivity.
    - cbn in Hk.
      assert (exists m', match to_dimension_value c with Some v => set_at_least m0 (k / 3) (k mod 3) v | None => Ok m0 end = Ok m' /\
        forall j x, nth_error (cells m0) j = Some x -> nth_error (cells m') j = Some (if (j =? k)%nat then match to_dimension_value c with Some v => Z.max x v | None => x end else x)) as (m' & -> & H').
      { destruct (to_dimension_value c) as [v|]; [apply raise_one; lia|]. exists m0. split; [reflexivity|]. intros j x E. rewrite E. now destruct (j =? k)%nat. }
      cbn [bind]. destruct (IH (S k) m' ltac:(lia)) as (r & -> & Hr). exists r. split; [reflexivity|]. intros j x E.
      rewrite (Hr j _ (H' j x E)). destruct (Nat.ltb_spec j (S k)), (Nat.ltb_spec j k), (Nat.eqb_spec j k); try lia; [reflexivity| |].
      + subst j. now rewrite Nat.sub_diag.
      + replace (j - k)%nat with (S (j - S k)) by lia. reflexivity. }
  destruct (G s 0%nat m L) as (r & E & H). exists r. split; [exact E|]. intros k x Hx. specialize (H k x Hx). cbn in H. rewrite Nat.sub_0_r in H. split.
  - intros c v N R. rewrite N in H. apply reads_value in R. now rewrite R in H.
  - intros R. destruct (nth_error s k) as [c|] eqn:N; [|exact H]. destruct (to_dimension_value c) as [v|] eqn:T; [|exact H].
    exfalso. apply (R c v eq_refl). now apply reads_value.
Qed.
(** Setting every cell, whatever the matrix was. *)
Theorem C28_set_all : forall m v, exists r, set_all m v = Ok r /\ cells r = repeat v 9.
Proof. intros m v. destruct m. eexists. split; reflexivity. Qed.
Example C28_raise_example : set_at_least_string im_default (str "1*x2") = Ok (mkIM 1 (-1) (-1) 2 (-1) (-1) (-1) (-1) (-1)).
Proof. reflexivity. Qed.
(** Locations have distinct symbols, and no symbol is written for another
    number. *)
Theorem C27_location_symbols :
  map to_location_symbol [INTERIOR; BOUNDARY; EXTERIOR; LOC_NONE] = map Some (str "ibe-") /\
  (forall v c, to_location_symbol v = Some c -> In v [INTERIOR; BOUNDARY; EXTERIOR; LOC_NONE]) /\
  (forall v w c, to_location_symbol v = Some c -> to_location_symbol w = Some c -> v = w).
Proof.
  assert (forall v c, to_location_symbol v = Some c -> In (v, c) [(0, 105); (1, 98); (2, 101); (-1, 45)]) as G.
  { intros v c. unfold to_location_symbol, EXTERIOR, BOUNDARY, INTERIOR, LOC_NONE.
    destruct (Z.eqb_spec v 2); [|destruct (Z.eqb_spec v 1); [|destruct (Z.eqb_spec v 0); [|destruct (Z.eqb_spec v (-1)); [|discriminate]]]];
      intros E; inversion E; subst; cbn; auto. }
  split; [reflexivity|]. split.
  - intros v c H. apply G in H. cbn in *. unfold INTERIOR, BOUNDARY, EXTERIOR, LOC_NONE. intuition congruence.
  - intros v w c Hv Hw. apply G in Hv, Hw. cbn in *. intuition congruence.
Qed.
(** Left and right are opposite, every other position is its own opposite; as
    numbers on, left and right are 0, 1 and 2. *)
Theorem C27_opposite_positions : opposite POS_LEFT = POS_RIGHT /\ opposite POS_RIGHT = POS_LEFT /\
  opposite 0 = POS_ON /\ opposite 1 = 2 /\ opposite 2 = 1 /\ opposite POS_ON <> POS_LEFT /\ opposite POS_ON <> POS_RIGHT /\
  (forall p, p <> POS_LEFT -> p <> POS_RIGHT -> opposite p = p) /\ (forall p, opposite (opposite p) = p).
Proof.
  unfold opposite, POS_LEFT, POS_RIGHT, POS_ON. do 5 (split; [reflexivity|]). do 2 (split; [discriminate|]). split; intros p.
  - intros H1 H2. destruct (Z.eqb_spec p 1), (Z.eqb_spec p 2); lia.
  - destruct (Z.eqb_spec p 1) as [->|]; [reflexivity|]. destruct (Z.eqb_spec p 2) as [->|]; [reflexivity|].
    destruct (Z.eqb_spec p 1), (Z.eqb_spec p 2); lia.
Qed.
(** Growing the cells keeps every match with a pattern of T and *. *)
Theorem C28_growth_keeps_matches : forall m n r p,
  Forall (fun a => a = "T"%char \/ a = "*"%char) (list_ascii_of_string p) ->
  im_add m n = Ok r -> Forall (fun v => v <> -1) (cells n) -> matches_string m (str p) = Ok true ->
  matches_string r (str p) = Ok true.
Proof.
  intros m n r p F H V. rewrite !matches_ok_true. rewrite im_add_max in H. inversion H; subst r. clear H.
  unfold fits. destruct m as [a b c d e f g h i], n as [a' b' c' d' e' f' g' h' i']. unfold zip_max, cells in *.
  cbn [ii ib ie IntersectionMatrix_model.bi bb be ei eb ee] in *.
  revert F. generalize (list_ascii_of_string p) as q. intros q F S.
  assert (forall v v' s, v' <> -1 -> s = "T"%char \/ s = "*"%char -> sat v s -> sat (Z.max v v') s) as M.
  { intros v v' s N [-> | ->] Hs; [|apply sat_any]. apply sat_T. inversion Hs; subst. lia. }
  do 9 (let S' := fresh "S" in let F' := fresh "F" in let V' := fresh "V" in
    inversion S as [|? ? ? ? ? S']; subst; clear S; rename S' into S;
    inversion F as [|? ? ? F']; subst; clear F; rename F' into F;
    inversion V as [|? ? ? V']; subst; clear V; rename V' into V).
  inversion S; subst. repeat apply Forall2_cons; try apply Forall2_nil; apply M; assumption.
Qed.
(** Without the restriction to cells other than F the claim fails: F in the
    argument replaces T. *)
Theorem C28_growth_from_T_refuted : exists m n r, im_add m n = Ok r /\
  matches_string m (str "T********") = Ok true /\ matches_string r (str "T********") = Ok false.
Proof.
  exists (mkIM (-2) 0 0 0 0 0 0 0 0), im_default. eexists. repeat split.
Qed.
Theorem C28_growth_keeps_matches_proper : forall m n r p,
  Forall (fun a => a = "T"%char \/ a = "*"%char) (list_ascii_of_string p) ->
  im_add m n = Ok r -> Forall proper (cells m) -> matches_string m (str p) = Ok true ->
  matches_string r (str p) = Ok true.
Proof.
  intros m n r p F H V. rewrite !matches_ok_true. rewrite im_add_max in H. inversion H; subst r. clear H.
  unfold fits. destruct m as [a b c d e f g h i], n as [a' b' c' d' e' f' g' h' i']. unfold zip_max, cells in *.
  cbn [ii ib ie IntersectionMatrix_model.bi bb be ei eb ee] in *.
  revert F. generalize (list_ascii_of_string p) as q. intros q F S.
  assert (forall v v' s, proper v -> s = "T"%char \/ s = "*"%char -> sat v s -> sat (Z.max v v') s) as M.
  { intros v v' s [N1 N2] [-> | ->] Hs; [|apply sat_any]. apply sat_T. inversion Hs; subst. lia. }
  do 9 (let S' := fresh "S" in let F' := fresh "F" in let V' := fresh "V" in
    inversion S as [|? ? ? ? ? S']; subst; clear S; rename S' into S;
    inversion F as [|? ? ? F']; subst; clear F; rename F' into F;
    inversion V as [|? ? ? V']; subst; clear V; rename V' into V).
  inversion S; subst. repeat apply Forall2_cons; try apply Forall2_nil; apply M; assumption.
Qed.
Example C28_example : exists m, run_updates im_default [((0, 1)%nat, 0); ((0, 1)%nat, 2); ((0, 1)%nat, 1); ((2, 2)%nat, 2)] = Ok m /\
  ib m = 2 /\ ee m = 2 /\ ii m = -1.
Proof. eexists. repeat split. Qed.
