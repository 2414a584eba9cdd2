(** Coordinate sequences: C24 and C29 to C33. *)
From Coq Require Import ZArith Bool List Lia.
From Verif Require Import Base F64 F64Facts Coordinate_model Coordinate_spec Envelope_model Envelope_spec
  Coordinate_proofs CoordArrays_model CoordArrays_proofs CoordSeq_model CoordSeq_spec CoordSeq_generic CoordSeq_proofs.
Import ListNotations.
Open Scope Z_scope.

Lemma list_eq_dec_nil {A} (l : list A) : l = [] \/ l <> [].
Proof. destruct l; [left|right]; easy. Qed.
Definition xy (x y : Z) : Coordinate := new_xy (fofZ x) (fofZ y).
Definition xyz (x y z : Z) : Coordinate := new_xyz (fofZ x) (fofZ y) (fofZ z).
Definition xym (x y m : Z) : Coordinate := new_xym (fofZ x) (fofZ y) (fofZ m).

(** ** C24 *)
Theorem C24_compare_f64_order : forall a b,
  (compare_f64 a b = -1 <-> ford_lt a b) /\ (compare_f64 a b = 1 <-> ford_lt b a) /\
  (compare_f64 a b = 0 <-> ford_eq a b).
Proof.
  intros a b. destruct (compare_f64_reflects a b) as [A B]. destruct (compare_f64_reflects b a) as [C _].
  destruct compare_f64_good as (_ & S & _). specialize (S b a).
  split; [exact A|]. split; [|exact B]. rewrite <- C. lia.
Qed.
Theorem C24_compare_f64_total : forall a b, compare_f64 a b = -1 \/ compare_f64 a b = 0 \/ compare_f64 a b = 1.
Proof. apply compare_f64_good. Qed.
Theorem C24_compare_f64_transitive : forall a b c, compare_f64 a b <= 0 -> compare_f64 b c <= 0 -> compare_f64 a c <= 0.
Proof. apply compare_f64_good. Qed.
Definition small_seq (s : CSeq) : Prop := Z.of_nat (length (scoords s)) <= 2147483648.
Lemma rows_cmp_good : good_cmp (lexcmp (lexcmp compare_f64)).
Proof. apply lexcmp_good, lexcmp_good, compare_f64_good. Qed.
Lemma rows_cmp_reflects : reflects (lexcmp (lexcmp compare_f64)) (lexi row_lt row_eq) (Forall2 row_eq).
Proof.
  apply lexcmp_reflects; [apply lexcmp_good, compare_f64_good|].
  apply lexcmp_reflects; [apply compare_f64_good|apply compare_f64_reflects].
Qed.
Theorem C24_sequence_order : forall limit s1 s2, small_seq s1 -> small_seq s2 ->
  exists c, seq_compare limit s1 s2 = Ok c /\ (c = -1 \/ c = 0 \/ c = 1) /\
    (c = -1 <-> seq_lt limit s1 s2) /\ (c = 1 <-> seq_lt limit s2 s1) /\ (c = 0 <-> seq_eq limit s1 s2).
Proof.
  intros limit s1 s2 N1 N2. rewrite seq_compare_spec by assumption. eexists. split; [reflexivity|].
  unfold seq_lt, seq_eq. cbv zeta. set (d1 := Z.min limit (sdim s1)). set (d2 := Z.min limit (sdim s2)).
  destruct rows_cmp_good as (R & S & _). specialize (R (rows d1 s1) (rows d1 s2)). pose proof (S (rows d1 s1) (rows d1 s2)) as S'.
  destruct (rows_cmp_reflects (rows d1 s1) (rows d1 s2)) as [A B].
  destruct (rows_cmp_reflects (rows d1 s2) (rows d1 s1)) as [C _].
  unfold lex. destruct (Z.ltb_spec d1 d2) as [L|L]; [|destruct (Z.ltb_spec d2 d1) as [L2|L2]].
  - split; [lia|]. split; [split; auto|]. split; [split; [discriminate|intros [?|[? _]]; lia]|split; [discriminate|intros [? _]; lia]].
  - split; [lia|]. split; [split; [discriminate|intros [?|[? _]]; lia]|]. split; [split; auto|split; [discriminate|intros [? _]; lia]].
  - assert (d1 = d2) as Ed by lia. rewrite <- Ed. split; [assumption|]. split; [|split].
    + rewrite A. split; [auto|]. intros [?|[_ ?]]; [lia|assumption].
    + rewrite <- C. split; intros; [right; split; [reflexivity|]; lia|]. destruct H as [?|[_ ?]]; lia.
    + rewrite B. split; [auto|]. intros [_ ?]; assumption.
Qed.
Theorem C24_sequence_antisymmetric : forall limit s1 s2 c, small_seq s1 -> small_seq s2 ->
  seq_compare limit s1 s2 = Ok c -> seq_compare limit s2 s1 = Ok (- c).
Proof.
  intros limit s1 s2 c N1 N2. rewrite !seq_compare_spec by assumption. intros E. inversion E. f_equal.
  destruct rows_cmp_good as (_ & S & _).
  unfold lex. destruct (Z.ltb_spec (Z.min limit (sdim s1)) (Z.min limit (sdim s2))),
    (Z.ltb_spec (Z.min limit (sdim s2)) (Z.min limit (sdim s1))); try lia.
  replace (Z.min limit (sdim s2)) with (Z.min limit (sdim s1)) by lia. apply S.
Qed.
Theorem C24_sequence_transitive : forall limit s1 s2 s3 c12 c23 c13, small_seq s1 -> small_seq s2 -> small_seq s3 ->
  seq_compare limit s1 s2 = Ok c12 -> seq_compare limit s2 s3 = Ok c23 -> seq_compare limit s1 s3 = Ok c13 ->
  c12 <= 0 -> c23 <= 0 -> c13 <= 0.
Proof.
  intros limit s1 s2 s3 c12 c23 c13 N1 N2 N3. rewrite !seq_compare_spec by assumption. intros E1 E2 E3.
  inversion E1; inversion E2; inversion E3. destruct rows_cmp_good as (_ & _ & T).
  unfold lex. destruct (Z.ltb_spec (Z.min limit (sdim s1)) (Z.min limit (sdim s2))),
    (Z.ltb_spec (Z.min limit (sdim s2)) (Z.min limit (sdim s1))),
    (Z.ltb_spec (Z.min limit (sdim s2)) (Z.min limit (sdim s3))),
    (Z.ltb_spec (Z.min limit (sdim s3)) (Z.min limit (sdim s2))),
    (Z.ltb_spec (Z.min limit (sdim s1)) (Z.min limit (sdim s3))),
    (Z.ltb_spec (Z.min limit (sdim s3)) (Z.min limit (sdim s1))); try lia.
  replace (Z.min limit (sdim s2)) with (Z.min limit (sdim s1)) by lia. apply T.
Qed.
Example C24_example :
  compare_f64 fnan fneginf = -1 /\ compare_f64 fneg0 f0 = 0 /\
  seq_compare i32_max (seq_of [xyz 1 2 3; xyz 1 2 4]) (seq_of [xyz 1 2 3; xyz 1 2 5; xyz 0 0 0]) = Ok (-1) /\
  seq_compare 2 (seq_of [xyz 1 2 3; xyz 1 2 4]) (seq_of [xy 1 2]) = Ok 1.
Proof. repeat split; vm_compute; reflexivity. Qed.

(** ** C29 *)
Lemma fold_max_ge (f : Coordinate -> Z) l : forall d, d <= fold_left (fun d c => Z.max d (f c)) l d.
Proof. induction l as [|a l IH]; intros d; cbn; [lia|]. specialize (IH (Z.max d (f a))). lia. Qed.
Lemma fold_max_in (f : Coordinate -> Z) l : forall d c, In c l -> f c <= fold_left (fun d c => Z.max d (f c)) l d.
Proof.
  induction l as [|a l IH]; intros d c; cbn; [easy|]. intros [<-|H]; [|apply IH; exact H].
  pose proof (fold_max_ge f l (Z.max d (f a))). lia.
Qed.
Lemma fold_max_out (f : Coordinate -> Z) l : forall d, fold_left (fun d c => Z.max d (f c)) l d = d \/
  exists c, In c l /\ fold_left (fun d c => Z.max d (f c)) l d = f c.
Proof.
  induction l as [|a l IH]; intros d; cbn; [auto|]. destruct (IH (Z.max d (f a))) as [H|(c & I & H)]; [|right; eauto].
  rewrite H. destruct (Z.max_spec d (f a)) as [[_ ->]|[_ ->]]; eauto.
Qed.
Lemma fold_max_rev (f : Coordinate -> Z) l d :
  fold_left (fun d c => Z.max d (f c)) (rev l) d = fold_left (fun d c => Z.max d (f c)) l d.
Proof.
  destruct (fold_max_out f (rev l) d) as [E1|(c & I & E1)], (fold_max_out f l d) as [E2|(c' & I' & E2)].
  - congruence.
  - pose proof (fold_max_in f (rev l) d c' ltac:(now apply -> in_rev)). pose proof (fold_max_ge f l d). lia.
  - apply in_rev in I. pose proof (fold_max_in f l d c I). pose proof (fold_max_ge f (rev l) d). lia.
  - pose proof (fold_max_in f (rev l) d c' ltac:(now apply -> in_rev)). apply in_rev in I.
    pose proof (fold_max_in f l d c I). lia.
Qed.
Lemma arr_dimension_fold cs : cs <> [] -> arr_dimension cs = fold_left (fun d c => Z.max d (coords_dimension c)) cs 0.
Proof. destruct cs; easy. Qed.
Lemma arr_measures_fold cs : cs <> [] -> arr_measures cs = fold_left (fun d c => Z.max d (coords_measures c)) cs 0.
Proof. destruct cs; easy. Qed.
Lemma rev_nonempty {A} (l : list A) : l <> [] -> rev l <> [].
Proof. intros H E. apply H. rewrite <- (rev_involutive l), E. reflexivity. Qed.
Lemma arr_dimension_rev cs : arr_dimension (rev cs) = arr_dimension cs.
Proof.
  destruct (list_eq_dec_nil cs) as [->|H]; [reflexivity|].
  rewrite !arr_dimension_fold by auto using rev_nonempty. apply fold_max_rev.
Qed.
Lemma arr_measures_rev cs : arr_measures (rev cs) = arr_measures cs.
Proof.
  destruct (list_eq_dec_nil cs) as [->|H]; [reflexivity|].
  rewrite !arr_measures_fold by auto using rev_nonempty. apply fold_max_rev.
Qed.
Lemma coords_dimension_ge c : 2 <= coords_dimension c.
Proof. unfold coords_dimension. destruct (is_xy c), (is_xym c), (is_xyzm c); lia. Qed.
Lemma arr_dimension_ge cs : 2 <= arr_dimension cs.
Proof.
  destruct cs as [|c t]; [cbn; lia|]. rewrite arr_dimension_fold by easy.
  pose proof (fold_max_in coords_dimension (c :: t) 0 c (or_introl eq_refl)). pose proof (coords_dimension_ge c). lia.
Qed.
Lemma arr_dimension_z cs c : In c cs -> arr_dimension cs <= 2 -> cz c = fnan.
Proof.
  intros I H. rewrite arr_dimension_fold in H by (intros ->; easy).
  pose proof (Z.le_trans _ _ _ (fold_max_in coords_dimension cs 0 c I) H) as H1. unfold coords_dimension in H1.
  destruct (is_xy c) eqn:E; [|destruct (is_xym c), (is_xyzm c); lia].
  unfold is_xy in E. rewrite !andb_true_iff in E. destruct E as [[_ E] _]. destruct (cz c); easy.
Qed.
Theorem C29_reverse_exact : forall s,
  exists s', seq_reverse s = Ok s' /\ sdim s' = sdim s /\ smeas s' = smeas s /\
    length (scoords s') = length (scoords s) /\
    forall i, (i < length (scoords s))%nat ->
      point s' i = blend (sdim s) (point s (length (scoords s) - 1 - i)) (point s i).
Proof. exact seq_reverse_spec. Qed.
Theorem C29_reverse_twice_is_identity : forall s, (s' <- seq_reverse s ;; seq_reverse s') = Ok s.
Proof.
  intros s. destruct (seq_reverse_spec s) as (s' & -> & D & M & L & P). cbn [bind].
  destruct (seq_reverse_spec s') as (s'' & -> & D' & M' & L' & P'). f_equal.
  apply seq_ext; try congruence. rewrite L', L. intros i Hi. rewrite P' by lia. rewrite !P by lia. rewrite D, L.
  replace (length (scoords s) - 1 - (length (scoords s) - 1 - i))%nat with i by lia. apply blend_twice.
Qed.
(** On sequences without M values the points come out in reverse order. *)
Theorem C29_reverse_without_m : forall cs, Forall (fun c => cm c = fnan) cs ->
  seq_reverse (seq_of cs) = Ok (seq_of (rev cs)).
Proof.
  intros cs F. destruct (seq_reverse_spec (seq_of cs)) as (s' & -> & D & M & L & P). f_equal.
  cbn [sdim smeas scoords seq_of] in D, M, L, P. apply seq_ext; cbn [sdim smeas scoords seq_of].
  - rewrite D. symmetry. apply arr_dimension_rev.
  - rewrite M. symmetry. apply arr_measures_rev.
  - now rewrite L, rev_length.
  - rewrite L. intros i Hi. rewrite P by assumption. unfold point. cbn [scoords seq_of].
    rewrite rev_nth by assumption. replace (length cs - S i)%nat with (length cs - 1 - i)%nat by lia.
    set (a := nth (length cs - 1 - i) cs coord_default). set (b := nth i cs coord_default).
    assert (In a cs) as Ia by (apply nth_In; lia). assert (In b cs) as Ib by (apply nth_In; lia).
    pose proof (arr_dimension_ge cs) as G2.
    assert (cm a = cm b) as EM by (rewrite Forall_forall in F; rewrite (F a Ia), (F b Ib); reflexivity).
    assert (arr_dimension cs <= 2 -> cz a = cz b) as EZ.
    { intros H. rewrite (arr_dimension_z cs a), (arr_dimension_z cs b); auto; lia. }
    unfold blend. rewrite (proj2 (Z.ltb_lt 0 _)), (proj2 (Z.ltb_lt 1 _)) by lia. rewrite <- EM.
    destruct (Z.ltb_spec 2 (arr_dimension cs)); [|rewrite <- EZ by lia]; destruct a; reflexivity.
Qed.
(** M values stay where they were. *)
Theorem C29_reverse_keeps_m_refuted :
  ~ (forall cs, seq_reverse (seq_of cs) = Ok (seq_of (rev cs))).
Proof.
  intros H. specialize (H [xym 1 2 10; xym 3 4 20]).
  assert (match seq_reverse (seq_of [xym 1 2 10; xym 3 4 20]) with Ok s => feqb (cm (point s 0)) (fofZ 20) | Panic => false end = true) as K
    by (rewrite H; vm_compute; reflexivity).
  vm_compute in K. discriminate K.
Qed.
Theorem C29_packed_reverse_exact : forall p n, packed_ok p n ->
  exists p', packed_reverse p = Ok p' /\ packed_ok p' n /\ pdim p' = pdim p /\ pmeas p' = pmeas p /\
    forall i k, (i < n)%nat -> (k < Z.to_nat (pdim p))%nat -> flat p' i k = flat p (n - 1 - i) k.
Proof. exact packed_reverse_spec. Qed.
Theorem C29_packed_reverse_twice : forall p n, packed_ok p n -> (p' <- packed_reverse p ;; packed_reverse p') = Ok p.
Proof.
  intros p n G. destruct (packed_reverse_spec p n G) as (p' & -> & G' & D & M & P). cbn [bind].
  destruct (packed_reverse_spec p' n G') as (p'' & -> & G'' & D' & M' & P'). f_equal.
  apply packed_ext with n; auto; try congruence. rewrite D', D. intros i k Hi Hk. rewrite P' by (rewrite ?D; lia). rewrite P by lia.
  f_equal. lia.
Qed.
Example C29_example :
  seq_reverse (seq_of [xyz 1 2 3; xyz 4 5 6; xyz 7 8 9]) = Ok (seq_of [xyz 7 8 9; xyz 4 5 6; xyz 1 2 3]) /\
  seq_reverse (seq_of [xym 1 2 10; xym 3 4 20]) = Ok (seq_of [xym 3 4 10; xym 1 2 20]) /\
  packed_ok (mkPacked 3 1 [f1; f2; f1; f0; f0; f2]) 2 /\
  packed_reverse (mkPacked 3 1 [f1; f2; f1; f0; f0; f2]) = Ok (mkPacked 3 1 [f0; f0; f2; f1; f2; f1]).
Proof.
  split; [reflexivity|]. split; [reflexivity|]. split; [|reflexivity].
  split; [|split]; cbn; unfold i32_max, usize_max; lia.
Qed.

(** ** C30 *)
Theorem C30_create_closed_ring : forall s m, (0 < length (scoords s))%nat -> (length (scoords s) <= m)%nat -> 2 <= sdim s ->
  exists s', seq_create_closed_ring s m = Ok s' /\ length (scoords s') = m /\ sdim s' = Z.min 3 (sdim s) /\ smeas s' = 0 /\
    (forall i, (i < length (scoords s))%nat -> same_upto (sdim s) (point s' i) (point s i)) /\
    (forall i, (length (scoords s) <= i < m)%nat -> same_upto (sdim s) (point s' i) (point s 0)).
Proof. exact seq_closed_ring_spec. Qed.
Theorem C30_create_closed_ring_too_small_panics : forall s m, (m < length (scoords s))%nat -> 2 <= sdim s ->
  seq_create_closed_ring s m = Panic.
Proof. exact seq_closed_ring_panics. Qed.
Theorem C30_extend_repeats_last : forall s m, (0 < length (scoords s))%nat -> (length (scoords s) <= m)%nat -> 2 <= sdim s ->
  exists s', seq_extend s m = Ok s' /\ length (scoords s') = m /\ sdim s' = Z.min 3 (sdim s) /\ smeas s' = 0 /\
    (forall i, (i < length (scoords s))%nat -> same_upto (sdim s) (point s' i) (point s i)) /\
    (forall i, (length (scoords s) <= i < m)%nat -> same_upto (sdim s) (point s' i) (point s (length (scoords s) - 1))).
Proof. exact seq_extend_spec. Qed.
(** [is_ring]: empty, or more than three points with the last at the first. *)
Theorem C30_is_ring : forall s, exists b, seq_is_ring s = Ok b /\
  (b = true <-> scoords s = [] \/
     ((3 < length (scoords s))%nat /\ pt_eq (point s 0) (point s (length (scoords s) - 1)))).
Proof.
  intros s. rewrite seq_is_ring_spec. eexists. split; [reflexivity|]. unfold ends_meet, pt_eq, eqf.
  rewrite orb_true_iff, !andb_true_iff, Nat.eqb_eq, Nat.ltb_lt, length_zero_iff_nil. tauto.
Qed.
Theorem C30_ensure_valid_ring : forall s, 2 <= sdim s -> scoords s <> [] -> nn_xy (point s 0) ->
  exists s', seq_ensure_valid_ring s = Ok s' /\ seq_is_ring s' = Ok true /\
    (4 <= length (scoords s'))%nat /\ (length (scoords s) <= length (scoords s'))%nat /\
    (forall i, (i < length (scoords s))%nat -> same_upto (sdim s) (point s' i) (point s i)) /\
    (forall i, (length (scoords s) <= i < length (scoords s'))%nat -> same_upto (sdim s) (point s' i) (point s 0)) /\
    ((3 < length (scoords s))%nat -> length (scoords s') = length (scoords s) \/ length (scoords s') = S (length (scoords s))).
Proof.
  intros s Hd Hne N. destruct (seq_ensure_spec s Hd) as (s' & E & A & B). exists s'. split; [exact E|].
  assert (0 < length (scoords s))%nat as Hn by (destruct (scoords s); [easy|cbn; lia]).
  set (n := length (scoords s)) in *.
  assert ((3 < n /\ ends_meet s = true)%nat \/ (n <= 3 \/ ends_meet s = false)%nat) as [C|C].
  { destruct (Nat.le_gt_cases n 3); [auto|]. destruct (ends_meet s); auto. }
  - rewrite A by auto. rewrite seq_is_ring_spec. destruct C as [C1 C2]. fold n. rewrite C2, (proj2 (Nat.ltb_lt 3 n)) by lia.
    rewrite orb_true_r. split; [reflexivity|]. split; [lia|]. split; [lia|]. split; [intros i Hi k _ _; reflexivity|]. split; [lia|]. left; lia.
  - destruct (B Hn C) as (L & _ & _ & P & Q). rewrite L.
    assert (4 <= (if n <=? 3 then 4 else n + 1) /\ n < (if n <=? 3 then 4 else n + 1))%nat as [M1 M2].
    { destruct (Nat.leb_spec n 3); lia. }
    split.
    + rewrite seq_is_ring_spec, L. rewrite (proj2 (Nat.ltb_lt 3 _)) by lia.
      assert (ends_meet s' = true) as ->; [|now rewrite orb_true_r].
      unfold ends_meet. rewrite L. set (m := if (n <=? 3)%nat then 4%nat else (n + 1)%nat) in *.
      pose proof (P 0%nat Hn) as P0. pose proof (Q (m - 1)%nat ltac:(lia)) as Q0.
      pose proof (P0 0%nat ltac:(lia) ltac:(cbn; lia)) as X0. pose proof (Q0 0%nat ltac:(lia) ltac:(cbn; lia)) as X1.
      pose proof (P0 1%nat ltac:(lia) ltac:(cbn; lia)) as Y0. pose proof (Q0 1%nat ltac:(lia) ltac:(cbn; lia)) as Y1.
      cbn [ord4] in *. rewrite X0, X1, Y0, Y1. destruct N as [Nx Ny]. rewrite !feqb_rank by assumption. rewrite !Z.eqb_refl. reflexivity.
    + split; [lia|]. split; [lia|]. split; [exact P|]. split; [exact Q|].
      intros H3. right. destruct (Nat.leb_spec n 3); lia.
Qed.
Theorem C30_valid_ring_unchanged : forall s, 2 <= sdim s -> seq_is_ring s = Ok true -> seq_ensure_valid_ring s = Ok s.
Proof.
  intros s Hd R. destruct (seq_ensure_spec s Hd) as (s' & -> & A & _). f_equal. apply A.
  rewrite seq_is_ring_spec in R. injection R as R. apply orb_prop in R. destruct R as [R|R].
  - left. now apply Nat.eqb_eq.
  - right. apply andb_prop in R. destruct R as [R1 R2]. apply Nat.ltb_lt in R1. auto.
Qed.
(** Closing a ring of points with M loses the M values. *)
Theorem C30_closing_keeps_m_refuted :
  ~ (forall s s' i, 2 <= sdim s -> seq_ensure_valid_ring s = Ok s' -> (i < length (scoords s))%nat ->
       point s' i = point s i).
Proof.
  intros H. specialize (H (seq_of [xym 0 0 5; xym 1 0 6; xym 1 1 7])
    (mkSeq 3 0 [xy 0 0; xy 1 0; xy 1 1; xy 0 0]) 0%nat ltac:(vm_compute; discriminate) ltac:(reflexivity) ltac:(cbn; lia)).
  apply (f_equal (fun c => fis_nan (cm c))) in H. vm_compute in H. discriminate H.
Qed.
Theorem C30_packed_ensure_valid_ring : forall p n, packed_ok p n -> (0 < n)%nat ->
  (Z.of_nat n + 4) * pdim p <= usize_max -> nn (flat p 0 0) -> nn (flat p 0 1) ->
  exists p' m, packed_ensure_valid_ring p = Ok p' /\ packed_ok p' m /\ packed_is_ring p' = Ok true /\
    (4 <= m)%nat /\ (n <= m)%nat /\ pdim p' = pdim p /\
    (forall i k, (i < n)%nat -> (k < Z.to_nat (pdim p))%nat -> flat p' i k = flat p i k) /\
    (forall i k, (n <= i < m)%nat -> (k < Z.to_nat (pdim p))%nat -> flat p' i k = flat p 0 k).
Proof.
  intros p n G Hn F Nx Ny. pose proof G as ((D1 & D2) & _).
  destruct (packed_ensure_spec p n G) as (p' & E & A & B).
  { unfold fits_p. nia. } { unfold fits_p. nia. }
  exists p'. set (cl := feqb (flat p 0 0) (flat p (n - 1) 0) && feqb (flat p 0 1) (flat p (n - 1) 1)) in *.
  assert ((3 < n /\ cl = true)%nat \/ (n <= 3 \/ cl = false)%nat) as [C|C].
  { destruct (Nat.le_gt_cases n 3); [auto|]. destruct cl; auto. }
  - exists n. rewrite A in * by auto. split; [exact E|]. split; [exact G|]. rewrite (packed_is_ring_spec p n G).
    fold cl. destruct C as [C1 C2]. rewrite C2, (proj2 (Nat.ltb_lt 3 n)) by lia. rewrite orb_true_r.
    split; [reflexivity|]. split; [lia|]. split; [lia|]. split; [reflexivity|]. split; [auto|]. intros; lia.
  - destruct (B Hn C) as (G' & Pd & _ & P & Q). set (m := if (n <=? 3)%nat then 4%nat else (n + 1)%nat) in *.
    assert (4 <= m /\ n < m)%nat as [M1 M2]. { unfold m. destruct (Nat.leb_spec n 3); lia. }
    exists m. split; [exact E|]. split; [exact G'|]. rewrite (packed_is_ring_spec p' m G').
    rewrite (P 0%nat 0%nat), (P 0%nat 1%nat), (Q (m - 1)%nat 0%nat), (Q (m - 1)%nat 1%nat) by lia.
    rewrite !feqb_rank by assumption. rewrite !Z.eqb_refl, (proj2 (Nat.ltb_lt 3 m)) by lia. rewrite orb_true_r.
    split; [reflexivity|]. split; [lia|]. split; [lia|]. split; [exact Pd|]. split; [exact P|exact Q].
Qed.

Example C30_example :
  (let s := seq_of [xyz 0 0 1; xyz 4 0 2; xyz 4 4 3] in
   seq_is_ring s = Ok false /\
   seq_ensure_valid_ring s = Ok (seq_of [xyz 0 0 1; xyz 4 0 2; xyz 4 4 3; xyz 0 0 1]) /\
   seq_create_closed_ring s 2 = Panic /\
   seq_extend s 5 = Ok (seq_of [xyz 0 0 1; xyz 4 0 2; xyz 4 4 3; xyz 4 4 3; xyz 4 4 3])) /\
  seq_is_ring (seq_of [xy 0 0; xy 4 0; xy 4 4; xy 0 0]) = Ok true.
Proof. cbv zeta. split; [split; [|split; [|split]]|]; reflexivity. Qed.

(** ** C31 *)
Lemma feqb_join a b c : feqb a b = true -> feqb c b = true -> feqb a c = true.
Proof.
  intros H1 H2. destruct (feqb_nn _ _ H1) as [Na Nb], (feqb_nn _ _ H2) as [Nc _].
  rewrite feqb_rank in * by assumption. apply Z.eqb_eq in H1, H2. apply Z.eqb_eq. lia.
Qed.
Theorem C31_scroll_positions : forall s i ring, (0 < i)%nat -> (ring = true -> (1 < length (scoords s))%nat) ->
  let last := (if ring then length (scoords s) - 1 else length (scoords s))%nat in
  exists s', seq_scroll_ring s i ring = Ok s' /\ sdim s' = sdim s /\ smeas s' = smeas s /\
    length (scoords s') = length (scoords s) /\
    (forall j, (j < last)%nat -> point s' j = blend (sdim s) (point s ((i + j) mod last)) (point s j)) /\
    (ring = true -> point s' last = blend (sdim s) (point s (i mod last)) (point s last)).
Proof. exact seq_scroll_spec. Qed.
Theorem C31_scroll_zero_unchanged : forall s ring, seq_scroll_ring s 0 ring = Ok s.
Proof. reflexivity. Qed.
Theorem C31_scroll_empty_panics : forall d m i, (0 < i)%nat -> seq_scroll_index (mkSeq d m []) i = Panic.
Proof. intros d m i H. destruct i; [lia|]. reflexivity. Qed.
Theorem C31_scroll_index_total : forall s i, scoords s <> [] -> exists s', seq_scroll_index s i = Ok s'.
Proof.
  intros s i H. unfold seq_scroll_index, sq_scroll_index. fold seq_is_ring. rewrite seq_is_ring_spec. cbn [bind].
  set (r := _ || _). fold seq_scroll_ring. destruct (Nat.eq_dec i 0) as [->|Hi]; [exists s; reflexivity|].
  destruct (seq_scroll_spec s i r ltac:(lia)) as (s' & E & _); [|eauto].
  unfold r. assert (length (scoords s) <> 0)%nat as N by (destruct (scoords s); [easy|cbn; lia]).
  apply Nat.eqb_neq in N. rewrite N. cbn [orb]. intros C. apply andb_prop in C. destruct C as [C _]. apply Nat.ltb_lt in C. lia.
Qed.
Theorem C31_ring_stays_ring : forall s i s', 2 <= sdim s -> scoords s <> [] -> Forall nn_xy (scoords s) ->
  seq_is_ring s = Ok true -> seq_scroll_index s i = Ok s' -> seq_is_ring s' = Ok true.
Proof.
  intros s i s' Hd Hne F R. unfold seq_scroll_index, sq_scroll_index. fold seq_is_ring. rewrite R. cbn [bind]. fold seq_scroll_ring.
  destruct (Nat.eq_dec i 0) as [->|Hi]; [intros E; inversion E; subst; exact R|].
  rewrite seq_is_ring_spec in R. assert (length (scoords s) <> 0)%nat as N by (destruct (scoords s); [easy|cbn; lia]).
  injection R as R. apply Nat.eqb_neq in N. rewrite N in R. cbn [orb] in R. apply andb_prop in R. destruct R as [C _]. pose proof C as C'. apply Nat.ltb_lt in C.
  destruct (seq_scroll_spec s i true ltac:(lia) ltac:(intros; lia)) as (s2 & -> & D & M & L & P & Q). cbv zeta in *.
  intros E. inversion E. subst s2. rewrite seq_is_ring_spec, L, N, C'. cbn [orb andb].
  unfold ends_meet. rewrite L. rewrite Q by reflexivity. rewrite (P 0%nat) by lia. rewrite Nat.add_0_r.
  set (k := (i mod (length (scoords s) - 1))%nat). assert (k < length (scoords s) - 1)%nat as Hk by (apply Nat.mod_upper_bound; lia).
  assert (nn_xy (point s k)) as [Nx Ny] by (rewrite Forall_forall in F; apply F, nth_In; lia).
  unfold blend. cbn [cx cy]. rewrite (proj2 (Z.ltb_lt 0 _)), (proj2 (Z.ltb_lt 1 _)) by lia.
  rewrite !feqb_rank by assumption. rewrite !Z.eqb_refl. reflexivity.
Qed.
Theorem C31_index_of_first : forall c s, small_seq s ->
  exists z, seq_index_of c s = Ok z /\
  ((z = -1 /\ forall i, (i < length (scoords s))%nat -> ~ pt_eq c (point s i)) \/
   (exists i, z = Z.of_nat i /\ (i < length (scoords s))%nat /\ pt_eq c (point s i) /\
      forall j, (j < i)%nat -> ~ pt_eq c (point s j))).
Proof. exact seq_index_of_spec. Qed.
Theorem C31_scroll_coordinate : forall s c, 2 <= sdim s -> small_seq s ->
  exists s', seq_scroll_coordinate s c = Ok s' /\
    ((exists i, (i < length (scoords s))%nat /\ pt_eq c (point s i)) -> pt_eq c (point s' 0)) /\
    ((forall i, (i < length (scoords s))%nat -> ~ pt_eq c (point s i)) -> s' = s).
Proof.
  intros s c Hd Hs. unfold seq_scroll_coordinate, sq_scroll_coordinate. fold seq_index_of.
  destruct (seq_index_of_spec c s Hs) as (z & -> & [[-> A]|(i & -> & Hi & Ei & First)]); cbn [bind].
  - cbn. exists s. split; [reflexivity|]. split; [|auto]. intros (i & Hi & E). destruct (A i Hi E).
  - fold seq_scroll_index. destruct (Z.leb_spec (Z.of_nat i) 0).
    + assert (i = 0)%nat by lia. subst i. exists s. auto.
    + rewrite Nat2Z.id. unfold seq_scroll_index, sq_scroll_index. fold seq_is_ring. rewrite seq_is_ring_spec. cbn [bind]. fold seq_scroll_ring.
      assert (length (scoords s) =? 0 = false)%nat as -> by (apply Nat.eqb_neq; lia). cbn [orb].
      set (r := (3 <? length (scoords s))%nat && ends_meet s).
      assert (r = true -> (3 < length (scoords s))%nat) as R3.
      { unfold r. intros R. apply andb_prop in R. destruct R as [R _]. now apply Nat.ltb_lt. }
      destruct (seq_scroll_spec s i r ltac:(lia)) as (s' & -> & D & M & L & P & Q). { intros R. specialize (R3 R). lia. }
      exists s'. split; [reflexivity|]. split; [|intros B; destruct (B i Hi Ei)]. intros _. cbv zeta in *.
      set (last := (if r then length (scoords s) - 1 else length (scoords s))%nat) in *.
      assert (0 < last)%nat. { unfold last. destruct r; [specialize (R3 eq_refl)|]; lia. }
      rewrite P by assumption. rewrite Nat.add_0_r.
      (* the first match is never the closing point of a ring *)
      assert (i < last)%nat as Hl.
      { unfold last. destruct r eqn:Er; [|assumption]. destruct (Nat.eq_dec i (length (scoords s) - 1)) as [El|]; [|lia]. exfalso.
        apply andb_prop in Er. destruct Er as [_ Er]. unfold ends_meet in Er. apply andb_prop in Er. destruct Er as [Ex Ey].
        apply (First 0%nat ltac:(lia)). rewrite El in Ei. destruct Ei as [E1 E2]. unfold pt_eq, eqf in *.
        split; eapply feqb_join; eassumption. }
      rewrite Nat.mod_small by assumption. unfold blend, pt_eq. cbn [cx cy].
      rewrite (proj2 (Z.ltb_lt 0 _)), (proj2 (Z.ltb_lt 1 _)) by lia. exact Ei.
Qed.
Theorem C31_min_index_first : forall s from to, (from <= to < length (scoords s))%nat -> small_seq s ->
  Forall nn_xy (scoords s) ->
  exists r, seq_min_index_from_to s from to = Ok (Z.of_nat r) /\ (from <= r <= to)%nat /\
    (forall j, (from <= j <= to)%nat -> ~ pt_lt (point s j) (point s r)) /\
    (forall j, (from <= j < r)%nat -> pt_lt (point s r) (point s j)).
Proof. exact seq_min_index_spec. Qed.
Theorem C31_min_coordinate : forall s, Forall nn_xy (scoords s) ->
  exists o, seq_min_coordinate s = Ok o /\
    match o with
    | None => scoords s = []
    | Some c => In c (scoords s) /\ forall p, In p (scoords s) -> ~ pt_lt p c
    end.
Proof. exact seq_min_coordinate_spec. Qed.
Theorem C31_is_equal : forall s1 s2,
  exists b, seq_is_equal s1 s2 = Ok b /\
    (b = true <-> length (scoords s1) = length (scoords s2) /\
       forall i k, (i < length (scoords s1))%nat -> (k < 3)%nat -> Z.of_nat k < Z.min (sdim s1) (sdim s2) ->
         ford_eq (ord4 (point s1 i) k) (ord4 (point s2 i) k)).
Proof. exact seq_is_equal_spec. Qed.
Example C31_example :
  (let s := seq_of [xy 0 0; xy 4 0; xy 4 4; xy 0 0] in
   seq_scroll_index s 1 = Ok (seq_of [xy 4 0; xy 4 4; xy 0 0; xy 4 0]) /\
   seq_scroll_coordinate s (xy 4 4) = Ok (seq_of [xy 4 4; xy 0 0; xy 4 0; xy 4 4]) /\
   seq_index_of (xy 0 0) s = Ok 0 /\ seq_min_index s = Ok 0) /\
  seq_scroll_index (seq_of [xy 1 1; xy 2 2; xy 3 3]) 2 = Ok (seq_of [xy 3 3; xy 1 1; xy 2 2]).
Proof. cbv zeta. split; [split; [|split; [|split]]|]; reflexivity. Qed.

(** ** C32 *)
Theorem C32_same_observations : forall p s, same_content p s ->
  packed_size p = Ok (seq_size s) /\
  (forall i k, (i < length (scoords s))%nat -> Z.of_nat k < pdim p ->
     packed_get p i (Z.of_nat k) = seq_get s i (Z.of_nat k)) /\
  packed_is_ring p = seq_is_ring s /\
  (forall e, packed_expand_envelope p e = Some (Ok (seq_expand_envelope s e))) /\
  (forall c, small_seq s -> packed_index_of c p = seq_index_of c s) /\
  (exists l, packed_to_array p = Ok l /\ length l = length (scoords s) /\
    forall i, (i < length (scoords s))%nat -> same_upto (pdim p) (nth i l coord_default) (point s i)).
Proof.
  intros p s H. split; [exact (p_size p _ (sc_len p s H))|]. split; [intros; now apply sc_get|].
  split; [now apply sc_is_ring|]. split; [intros; now apply sc_expand|]. split; [intros; now apply sc_index_of|].
  destruct (sc_to_array p s H) as (l & E & L & P). exists l. split; [exact E|]. split; [exact L|].
  intros i Hi k K3 Kd. rewrite P by assumption. rewrite blend_ord. destruct H as (_ & _ & D & _). rewrite D.
  destruct (Nat.ltb_spec k (Nat.min (Z.to_nat (pdim p)) 3)); [reflexivity|lia].
Qed.
Theorem C32_same_min_index : forall p s from to, same_content p s -> (from <= to < length (scoords s))%nat ->
  small_seq s -> Forall nn_xy (scoords s) ->
  sq_min_index_from_to Packed packed_coord p from to = seq_min_index_from_to s from to.
Proof. exact sc_min_index. Qed.
Theorem C32_same_equality : forall p1 p2 s1 s2, same_content p1 s1 -> same_content p2 s2 ->
  packed_is_equal p1 p2 = seq_is_equal s1 s2.
Proof. exact sc_is_equal. Qed.
(** Any history of in-range ordinate assignments keeps them in step. *)
Theorem C32_same_after_assignments : forall h p s, same_content p s ->
  Forall (fun '(i, k, _) => (i < length (scoords s))%nat /\ Z.of_nat k < pdim p) h ->
  exists p' s', assigns_p p h = Ok p' /\ assigns_s s h = Ok s' /\ same_content p' s'.
Proof. exact sc_assigns. Qed.
Theorem C32_set_changes_one_ordinate : forall s i k v, (i < length (scoords s))%nat ->
  exists s', seq_set s i (Z.of_nat k) v = Ok s' /\ length (scoords s') = length (scoords s) /\
    sdim s' = sdim s /\ smeas s' = smeas s /\
    forall i' k', ord4 (point s' i') k' = if (i' =? i)%nat && (k' =? k)%nat && (k <? 3)%nat then v else ord4 (point s i') k'.
Proof. exact seq_set_spec. Qed.
Theorem C32_packed_set_changes_one_ordinate : forall p n i k v, packed_ok p n -> (i < n)%nat -> (k < Z.to_nat (pdim p))%nat ->
  exists p', packed_set p i (Z.of_nat k) v = Ok p' /\ packed_ok p' n /\ pdim p' = pdim p /\ pmeas p' = pmeas p /\
    forall i' k', (k' < Z.to_nat (pdim p))%nat -> flat p' i' k' = if (i' =? i)%nat && (k' =? k)%nat then v else flat p i' k'.
Proof. exact packed_set_spec. Qed.
Theorem C32_same_after_reverse : forall p s, same_content p s ->
  exists p' s', packed_reverse p = Ok p' /\ seq_reverse s = Ok s' /\ same_content p' s'.
Proof. exact sc_reverse. Qed.
Theorem C32_same_after_scroll : forall p s i ring, same_content p s -> (ring = true -> (1 < length (scoords s))%nat) ->
  exists p' s', packed_scroll_ring p i ring = Ok p' /\ seq_scroll_ring s i ring = Ok s' /\ same_content p' s'.
Proof. exact sc_scroll. Qed.
Theorem C32_same_after_closing : forall p s, same_content p s -> 3 * (Z.of_nat (length (scoords s)) + 4) <= usize_max ->
  exists p' s', packed_ensure_valid_ring p = Ok p' /\ seq_ensure_valid_ring s = Ok s' /\ same_content p' s'.
Proof. exact sc_ensure. Qed.
Example C32_example :
  same_content (mkPacked 2 0 [f0; f1; f2; f1]) (seq_of [new_xy f0 f1; new_xy f2 f1]) /\
  assigns_p (mkPacked 2 0 [f0; f1; f2; f1]) [(0, 1, f2); (1, 0, f1)]%nat = Ok (mkPacked 2 0 [f0; f2; f1; f1]) /\
  packed_reverse (mkPacked 2 0 [f0; f1; f2; f1]) = Ok (mkPacked 2 0 [f2; f1; f0; f1]).
Proof.
  split; [|split; reflexivity]. split; [left; reflexivity|]. split; [reflexivity|]. split; [reflexivity|]. split.
  - split; [|split]; cbn; unfold i32_max, usize_max; lia.
  - cbn [scoords seq_of length pdim]. intros i k Hi Hk. destruct i as [|[|]]; [| |lia]; destruct k as [|[|]]; try lia; reflexivity.
Qed.

(** ** C33 *)
Theorem C33_from_coordinates_panics : forall cs, cs <> [] ->
  packed_of_coords cs = Panic /\
  (forall d, packed_of_coords_dim cs d = Panic) /\
  (forall d m, packed_of_coords_dim_meas cs d m = Panic) /\
  packed_create_from_coords cs = Panic.
Proof.
  intros cs H. assert (forall d, packed_fill d cs = Panic) as F.
  { intros d. destruct cs as [|c t]; [easy|]. unfold packed_fill. cbn [length forN idx nth_error bind].
    unfold pidx. destruct (usize_chk (Z.of_nat 0 * usize_wrap d)) as [a|]; cbn [bind]; [|reflexivity].
    destruct (usize_chk (a + usize_wrap 0)) as [b|]; cbn [bind]; [|reflexivity]. rewrite upd_panic by (cbn; lia). reflexivity. }
  unfold packed_of_coords, packed_of_coords_dim, packed_of_coords_dim_meas, packed_create_from_coords.
  split; [now rewrite F|]. split; [intros d; destruct (i32_chk (d - 3)); cbn [bind]; [now rewrite F|reflexivity]|].
  split; [intros; now rewrite F|]. destruct cs; [easy|]. unfold packed_of_coords_dim_meas. now rewrite F.
Qed.
Theorem C33_from_coordinates_refuted :
  ~ (forall cs, exists p, packed_of_coords cs = Ok p /\ packed_size p = Ok (length cs)).
Proof.
  intros H. destruct (H [xy 1 2]) as (p & E & _). rewrite (proj1 (C33_from_coordinates_panics [xy 1 2] ltac:(easy))) in E. discriminate E.
Qed.
Theorem C33_empty_works : forall d m, packed_of_coords_dim_meas [] d m = Ok (mkPacked d m []).
Proof. reflexivity. Qed.
(** Raw ordinates and copies are kept exactly. *)
Theorem C33_from_raw_ordinates : forall raw d m, packed_new raw d m = Ok (mkPacked d m raw).
Proof. exact packed_new_id. Qed.
Theorem C33_copy_exact : forall p, packed_copy p = Ok p.
Proof. exact packed_copy_id. Qed.
Example C33_example :
  packed_of_coords [xyz 1 2 3; xyz 4 5 6] = Panic /\ packed_new [f1; f2] 2 0 = Ok (mkPacked 2 0 [f1; f2]).
Proof. split; reflexivity. Qed.
