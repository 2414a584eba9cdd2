(** Lemmas on the geometry types. *)
From Coq Require Import ZArith Bool List Lia Permutation.
From Verif Require Import Base F64 F64Facts Coordinate_model Coordinate_spec Envelope_model Envelope_spec Envelope_proofs
  Coordinate_proofs CoordArrays_model CoordArrays_spec CoordArrays_proofs CoordSeq_model CoordSeq_spec CoordSeq_proofs
  PrecisionModel_model Measure_model Orientation_model Orientation_proofs Matrix_model Geom_model.
Import ListNotations.
Open Scope nat_scope.

(** ** Copies *)
Lemma env_copy e : env_new_envelope e = e.
Proof. now destruct e. Qed.
Lemma from_coordinate_id c : from_coordinate c = c.
Proof. now destruct c. Qed.
Lemma rg_of_seq_id s : rg_of_seq s = Ok (mkRg s None None).
Proof. unfold rg_of_seq. now rewrite seq_copy_id. Qed.
Lemma rg_copy_id r : rg_copy r = Ok (mkRg (rg_seq r) None None).
Proof. unfold rg_copy. rewrite seq_copy_id. cbn [bind]. apply rg_of_seq_id. Qed.
Lemma rg_sequence_id r : rg_sequence r = Ok (rg_seq r).
Proof. apply seq_copy_id. Qed.
Lemma create_line_id s : create_line_of_seq s = Ok (mkLn s None).
Proof. unfold create_line_of_seq. now rewrite seq_copy_id. Qed.
Lemma pt_of_seq_id s : seq_size s <= 1 -> pt_of_seq s = Ok (mkPt s None None).
Proof. intros H. unfold pt_of_seq, rassert. rewrite (proj2 (Nat.leb_le _ _) H). cbn [bind]. now rewrite seq_copy_id. Qed.
Lemma pt_of_seq_panics s : 1 < seq_size s -> pt_of_seq s = Panic.
Proof. intros H. unfold pt_of_seq, rassert. rewrite (proj2 (Nat.leb_gt _ _) H). reflexivity. Qed.
Lemma create_point_id c : create_point_from_coordinate c = Ok (mkPt (seq_of [c]) None None).
Proof. unfold create_point_from_coordinate. rewrite from_coordinate_id, pt_of_seq_id; [reflexivity|]. cbn. lia. Qed.
Lemma seq_coord_point s i : i < seq_size s -> seq_coord s i = Ok (point s i).
Proof. intros H. now apply idx_nth. Qed.

(** ** Points at the same place *)
Lemma same_pts_refl l : Forall nn_xy l -> same_pts l l.
Proof. induction 1; constructor; auto. apply pt_eq_rank; auto. Qed.
Lemma same_pts_nth a b d : length a = length b -> (forall i, i < length a -> pt_eq (nth i a d) (nth i b d)) -> same_pts a b.
Proof.
  revert b. induction a as [|x a IH]; intros [|y b] L H; cbn in L; try discriminate; constructor.
  - apply (H 0). cbn. lia.
  - apply IH; [lia|]. intros i Hi. apply (H (S i)). cbn. lia.
Qed.
Lemma same_pts_length a b : same_pts a b -> length a = length b.
Proof. induction 1; cbn; congruence. Qed.
Lemma pt_eq_xy a b c : cx a = cx b -> cy a = cy b -> pt_eq b c -> pt_eq a c.
Proof. unfold pt_eq. now intros -> ->. Qed.
Lemma nn_xy_same a b : cx a = cx b -> cy a = cy b -> nn_xy b -> nn_xy a.
Proof. unfold nn_xy. now intros -> ->. Qed.
(** Two lists with the same X and Y everywhere. *)
Definition eq_xy (a b : list Coordinate) : Prop := length a = length b /\ forall i, i < length a -> cx (nth i a coord_default) = cx (nth i b coord_default) /\ cy (nth i a coord_default) = cy (nth i b coord_default).
Lemma eq_xy_nn a b : eq_xy a b -> Forall nn_xy b -> Forall nn_xy a.
Proof.
  intros (L & H) F. apply Forall_forall. intros p I. destruct (In_nth _ _ coord_default I) as (i & Hi & <-). destruct (H i Hi) as (X & Y).
  apply (nn_xy_same _ _ X Y). rewrite Forall_forall in F. apply F, nth_In. lia.
Qed.
Lemma eq_xy_same a b : eq_xy a b -> Forall nn_xy b -> same_pts a b.
Proof.
  intros E F. pose proof (eq_xy_nn _ _ E F) as Fa. destruct E as (L & H). apply same_pts_nth with coord_default; [exact L|]. intros i Hi. destruct (H i Hi) as (X & Y).
  apply (pt_eq_xy _ _ _ X Y). rewrite Forall_forall in F. assert (nn_xy (nth i b coord_default)) by (apply F, nth_In; lia). now apply pt_eq_rank.
Qed.
Lemma arr_compare_xy : forall a b c d, eq_xy a b -> eq_xy c d -> arr_compare a c = arr_compare b d.
Proof.
  assert (forall x a y b, eq_xy (x :: a) (y :: b) -> cx x = cx y /\ cy x = cy y /\ eq_xy a b) as CONS.
  { intros x a y b (L & H). destruct (H 0 ltac:(cbn; lia)) as (X & Y). split; [exact X|]. split; [exact Y|]. split; [cbn in L; lia|]. intros i Hi. apply (H (S i)). cbn. lia. }
  induction a as [|x a IH]; intros b c d E F.
  - destruct b; [|destruct E; discriminate]. destruct c, d; try reflexivity; destruct F; discriminate.
  - destruct b as [|y b]; [destruct E; discriminate|]. destruct (CONS _ _ _ _ E) as (X & Y & E').
    destruct c as [|z c], d as [|w d]; try (destruct F; discriminate); [reflexivity|]. destruct (CONS _ _ _ _ F) as (X' & Y' & F').
    cbn. assert (compare_to x z = compare_to y w) as -> by (unfold compare_to; now rewrite X, Y, X', Y'). destruct (negb (compare_to y w =? 0)%Z); [reflexivity|]. now apply IH.
Qed.
Lemma eq_xy_refl a : eq_xy a a.
Proof. split; auto. Qed.
Lemma eq_xy_sym a b : eq_xy a b -> eq_xy b a.
Proof. intros (L & H). split; [auto|]. intros i Hi. destruct (H i ltac:(lia)). auto. Qed.
Lemma eq_xy_rev a b : eq_xy a b -> eq_xy (rev a) (rev b).
Proof.
  intros (L & H). split; [now rewrite !rev_length|]. intros i Hi. rewrite rev_length in Hi. rewrite !rev_nth by lia. rewrite L. apply H. lia.
Qed.
Lemma reverse_xy s s' : (2 <= sdim s)%Z -> seq_reverse s = Ok s' -> eq_xy (scoords s') (rev (scoords s)).
Proof.
  intros D E. destruct (seq_reverse_spec s) as (s2 & E2 & _ & _ & L & P). assert (s2 = s') as -> by congruence.
  split; [now rewrite rev_length|]. rewrite L. intros i Hi. fold (point s' i). rewrite P, rev_nth by lia. unfold point.
  replace (length (scoords s) - S i) with (length (scoords s) - 1 - i) by lia. unfold blend. cbn [cx cy].
  rewrite (proj2 (Z.ltb_lt 0 (sdim s))), (proj2 (Z.ltb_lt 1 (sdim s))) by lia. auto.
Qed.
Lemma reverse_ok s : exists s', seq_reverse s = Ok s' /\ seq_reverse s' = Ok s /\ sdim s' = sdim s.
Proof.
  destruct (seq_reverse_spec s) as (s' & E & D & M & L & P). exists s'. split; [exact E|]. split; [|exact D].
  destruct (seq_reverse_spec s') as (s'' & -> & D' & M' & L' & P'). f_equal.
  apply seq_ext; try congruence. rewrite L', L. intros i Hi. rewrite P' by lia. rewrite !P by lia. rewrite D, L.
  replace (length (scoords s) - 1 - (length (scoords s) - 1 - i)) with i by lia. apply blend_twice.
Qed.

(** ** Loops over two sequences *)
Lemma seq_compare_points_arr s t : seq_compare_points s t = Ok (arr_compare (scoords s) (scoords t)).
Proof.
  unfold seq_compare_points. cbv zeta. unfold seq_size.
  destruct (loop_lex compare_to (scoords s) (scoords t) 0 (fun i _ => a <- seq_coord s i ;; b <- seq_coord t i ;; Ok (if negb (compare_to a b =? 0)%Z then inr (compare_to a b) else inl tt))) as (o & E & H).
  { intros i a b A B. rewrite Nat.add_0_l. unfold seq_coord, idx. rewrite A, B. reflexivity. }
  rewrite E. cbn [bind]. assert (forall l1 l2, lexcmp compare_to l1 l2 = arr_compare l1 l2) as LC.
  { induction l1 as [|a l1 IH]; intros [|b l2]; cbn; auto. rewrite IH. now destruct (compare_to a b =? 0)%Z. }
  rewrite LC in H. destruct o as [[]|c]; [|now rewrite H]. rewrite H.
  destruct (Nat.ltb_spec (length (scoords t)) (length (scoords s))).
  - rewrite Nat.min_r by lia. now rewrite (proj2 (Nat.ltb_lt _ _)).
  - rewrite Nat.min_l by lia. rewrite Nat.ltb_irrefl. now destruct (Nat.ltb (length (scoords s)) (length (scoords t))).
Qed.
(** A loop that stops at the first index where a test fails. *)
Lemma forR_all (test : nat -> bool) body n (b : bool) :
  (forall i, i < n -> body i tt = Ok (if negb (test i) then inr b else inl tt)) ->
  (forR n 0 tt body = Ok (inl tt) /\ (forall i, i < n -> test i = true)) \/
  (forR n 0 tt body = Ok (inr b) /\ exists i, i < n /\ test i = false /\ forall j, j < i -> test j = true).
Proof.
  intros H. destruct (forR_ind (fun i (_ : unit) => forall j, j < i -> test j = true) (fun r => r = b /\ exists i, i < n /\ test i = false /\ forall j, j < i -> test j = true) body n 0 tt) as [([] & E & K)|(r & E & -> & K)].
  - lia.
  - intros i [] Hi K. destruct (test i) eqn:T.
    + left. exists tt. rewrite H, T by lia. split; [reflexivity|]. intros j Hj. destruct (Nat.eq_dec j i) as [->|]; [exact T|]. apply K. lia.
    + right. exists b. rewrite H, T by lia. split; [reflexivity|]. split; [reflexivity|]. exists i. split; [lia|]. auto.
  - left. auto.
  - right. auto.
Qed.
Definition all_pairs {A} (test : A -> A -> bool) (a b : list A) : bool :=
  Nat.eqb (length a) (length b) && forallb (fun '(x, y) => test x y) (combine a b).
Lemma all_pairs_F2 {A} (test : A -> A -> bool) a b : all_pairs test a b = true <-> Forall2 (fun x y => test x y = true) a b.
Proof.
  unfold all_pairs. rewrite andb_true_iff, Nat.eqb_eq. revert b. induction a as [|x a IH]; intros [|y b]; cbn [length combine forallb].
  - split; auto. 
  - split; [intros (L & _); discriminate|intros F; inversion F].
  - split; [intros (L & _); discriminate|intros F; inversion F].
  - rewrite andb_true_iff. split.
    + intros (L & T & F). constructor; [exact T|]. apply IH. split; [lia|exact F].
    + intros F. inversion F; subst. destruct (proj2 (IH b)) as (L & G); [assumption|]. repeat split; auto; lia.
Qed.
Lemma pairs_loop {A} (test : A -> A -> bool) (a b : list A) (body : nat -> unit -> res (unit + bool)) : length a = length b ->
  (forall i x y, nth_error a i = Some x -> nth_error b i = Some y -> body i tt = Ok (if negb (test x y) then inr false else inl tt)) ->
  (r <- forR (length a) 0 tt body ;; match r with inr b => Ok b | inl _ => Ok true end) = Ok (all_pairs test a b).
Proof.
  intros L H. destruct (forR_all (fun i => match nth_error a i, nth_error b i with Some x, Some y => test x y | _, _ => false end) body (length a) false) as [(E & K)|(E & i & Hi & T & _)].
  - intros i Hi. destruct (nth_error a i) as [x|] eqn:X; [|apply nth_error_None in X; lia]. destruct (nth_error b i) as [y|] eqn:Y; [|apply nth_error_None in Y; lia]. now apply H.
  - rewrite E. cbn [bind]. f_equal. symmetry. apply all_pairs_F2. clear H E body. revert b L K. induction a as [|x a IH]; intros [|y b] L K; cbn in L; try discriminate; constructor.
    + apply (K 0). cbn. lia.
    + apply IH; [lia|]. intros i Hi. apply (K (S i)). cbn. lia.
  - rewrite E. cbn [bind]. f_equal. symmetry. apply not_true_iff_false. rewrite all_pairs_F2. intros F.
    destruct (nth_error a i) as [x|] eqn:X; [|apply nth_error_None in X; lia]. destruct (nth_error b i) as [y|] eqn:Y; [|apply nth_error_None in Y; lia].
    clear H E body L Hi. revert b i X Y F. induction a as [|x' a IH]; intros b i X Y F; inversion F; subst.
    + destruct i; discriminate.
    + destruct i as [|i]; cbn in X, Y; [injection X as ->; injection Y as ->; congruence|]. eapply IH; eauto.
Qed.

(** ** Normal form of a line *)
Lemma compare_to_equals a b : nn_xy a -> nn_xy b -> (compare_to a b = 0)%Z <-> equals_2d a b = true.
Proof. intros A B. rewrite equals_2d_eq. now apply compare_to_zero. Qed.
Lemma ln_normalize_eq l : Forall nn_xy (scoords (ln_seq l)) ->
  ln_normalize l = if (arr_compare (scoords (ln_seq l)) (rev (scoords (ln_seq l))) >? 0)%Z
                   then s <- seq_reverse (ln_seq l) ;; Ok (mkLn s (ln_env l)) else Ok l.
Proof.
  intros F. unfold ln_normalize, seq_size. set (pts := scoords (ln_seq l)) in *. set (n := length pts).
  assert (forall i, i < n -> nn_xy (nth i pts coord_default)) as NN by (intros i Hi; rewrite Forall_forall in F; now apply F, nth_In).
  destruct (reverse_ok (ln_seq l)) as (rs & RS & _).
  set (f := fun i => Ok (if equals_2d (nth i pts coord_default) (nth (n - 1 - i) pts coord_default) then None
      else Some (if (compare_to (nth i pts coord_default) (nth (n - 1 - i) pts coord_default) >? 0)%Z then mkLn rs (ln_env l) else l))).
  assert (Nat.div n 2 * 2 <= n /\ n < Nat.div n 2 * 2 + 2) as (D1 & D2).
  { pose proof (Nat.div_mod n 2 ltac:(lia)). pose proof (Nat.mod_upper_bound n 2 ltac:(lia)). lia. }
  rewrite (forR_ext _ 0 tt _ (fun i _ => o <- f i ;; match o with Some r => Ok (inr r) | None => Ok (inl tt) end)).
  2:{ intros i s Hi. rewrite usub_ok by lia. cbn [bind]. rewrite usub_ok by lia. cbn [bind]. unfold seq_coord. fold pts.
      rewrite !(idx_nth _ _ coord_default) by (fold n; lia). cbn [bind]. rewrite seq_copy_id. cbn [bind]. rewrite RS. unfold f. cbn [bind].
      destruct (equals_2d _ _); cbn [negb]; [reflexivity|]. now destruct (_ >? 0)%Z. }
  destruct (forR_scan f (Nat.div n 2) 0) as (o & E & P1 & P2). { intros i Hi. unfold f. eauto. }
  rewrite E. cbn [bind]. rewrite RS. cbn [bind].
  assert (forall i, i < n -> compare_to (nth i pts coord_default) (nth i (rev pts) coord_default) = compare_to (nth i pts coord_default) (nth (n - 1 - i) pts coord_default)) as RV.
  { intros i Hi. rewrite rev_nth by (fold n; lia). fold n. now replace (n - S i) with (n - 1 - i) by lia. }
  destruct o as [[]|r].
  - specialize (P2 eq_refl). rewrite (arr_compare_none pts (rev pts) coord_default); [reflexivity|now rewrite rev_length|].
    fold n. intros j Hj. rewrite RV by lia.
    assert (forall i, i < Nat.div n 2 -> compare_to (nth i pts coord_default) (nth (n - 1 - i) pts coord_default) = 0%Z) as LO.
    { intros i Hi. specialize (P2 i ltac:(lia)). unfold f in P2. apply compare_to_equals; [apply NN; lia|apply NN; lia|]. now destruct (equals_2d _ _). }
    destruct (le_lt_dec (Nat.div n 2) j) as [G|G]; [|now apply LO].
    destruct (Nat.eq_dec (n - 1 - j) j) as [->|Nj]; [apply compare_to_refl|].
    pose proof (LO (n - 1 - j) ltac:(lia)) as K. replace (n - 1 - (n - 1 - j)) with j in K by lia. rewrite compare_to_antisym in K. lia.
  - destruct (P1 r eq_refl) as (i & Hi & Fi & Mi). unfold f in Fi. destruct (equals_2d _ _) eqn:Q; [discriminate|]. injection Fi as <-.
    assert (compare_to (nth i pts coord_default) (nth (n - 1 - i) pts coord_default) <> 0%Z) as NZ.
    { intros C. apply compare_to_equals in C; [congruence|apply NN; lia|apply NN; lia]. }
    rewrite (arr_compare_first pts (rev pts) coord_default ltac:(now rewrite rev_length) i); try (fold n; lia).
    + rewrite RV by lia. destruct (_ >? 0)%Z; reflexivity.
    + intros j Hj. rewrite RV by lia. specialize (Mi j ltac:(lia)). unfold f in Mi. apply compare_to_equals; [apply NN; lia|apply NN; lia|]. destruct (equals_2d (nth j pts coord_default) (nth (n - 1 - j) pts coord_default)); [reflexivity|discriminate].
    + now rewrite RV by lia.
Qed.

(** ** Closed lines *)
Lemma hd_last (cs : list Coordinate) : cs <> [] -> hd_error cs = Some (nth 0 cs coord_default) /\ hd_error (rev cs) = Some (nth (length cs - 1) cs coord_default).
Proof.
  intros N. destruct (last_cases cs) as [->|(w & p & ->)]; [easy|]. split; [now destruct w|]. rewrite rev_app_distr. cbn.
  rewrite app_length, app_nth2 by (cbn; lia). cbn. now replace (length w + 1 - 1 - length w) with 0 by lia.
Qed.
Lemma closed_test cs : cs <> [] -> equals_2d (nth 0 cs coord_default) (nth (length cs - 1) cs coord_default) = true <-> closed cs.
Proof.
  intros N. destruct (hd_last cs N) as (H & L). rewrite equals_2d_eq. unfold closed. rewrite H, L. split.
  - intros E. eexists _, _. eauto.
  - intros (a & b & A & B & E). injection A as <-. now injection B as <-.
Qed.

(** ** Envelopes of reversed sequences *)
Lemma reverse_ordinates s s' (P Q : f64 -> Prop) : seq_reverse s = Ok s' ->
  Forall (fun p => P (cx p) /\ Q (cy p)) (scoords s) -> Forall (fun p => P (cx p) /\ Q (cy p)) (scoords s').
Proof.
  intros E F. destruct (seq_reverse_spec s) as (s2 & E2 & _ & _ & L & R). assert (s2 = s') as -> by congruence.
  assert (forall i, i < length (scoords s) -> P (cx (point s i)) /\ Q (cy (point s i))) as A by (intros i Hi; rewrite Forall_forall in F; now apply F, nth_In).
  apply Forall_forall. intros p I. destruct (In_nth _ _ coord_default I) as (i & Hi & <-). fold (point s' i). rewrite L in Hi. rewrite R by exact Hi.
  pose proof (A i Hi) as (A1 & A2). destruct (A (length (scoords s) - 1 - i) ltac:(lia)) as (B1 & B2).
  unfold blend. cbn [cx cy]. destruct (0 <? sdim s)%Z, (1 <? sdim s)%Z; auto.
Qed.
Lemma reverse_nn s s' : seq_reverse s = Ok s' -> Forall nn_xy (scoords s) <-> Forall nn_xy (scoords s').
Proof.
  intros E. assert (seq_reverse s' = Ok s) as E' by (destruct (reverse_ok s) as (t & A & B & _); congruence).
  split; [apply (reverse_ordinates s s' nn nn E)|apply (reverse_ordinates s' s nn nn E')].
Qed.
Lemma reverse_envelope s s' : seq_reverse s = Ok s' -> Forall nn_xy (scoords s) ->
  same_points (envelope_of (scoords s')) (envelope_of (scoords s)).
Proof.
  assert (forall s s', seq_reverse s = Ok s' -> Forall nn_xy (scoords s) -> subset (envelope_of (scoords s')) (envelope_of (scoords s))) as H.
  { intros t t' E F. pose proof (proj1 (reverse_nn _ _ E) F) as F'. apply envelope_of_least; [exact F'|now apply envelope_of_wf|].
    eapply Forall_impl; [|apply (reverse_ordinates t t' (fun x => lef (minx (envelope_of (scoords t))) x /\ lef x (maxx (envelope_of (scoords t))))
       (fun y => lef (miny (envelope_of (scoords t))) y /\ lef y (maxy (envelope_of (scoords t)))) E)].
    - intros p ((A & B) & C & D). repeat split; assumption.
    - apply Forall_forall. intros p I. destruct (envelope_of_covers _ p F I) as (A & B & C & D). auto. }
  intros E F x y. pose proof (proj1 (reverse_nn _ _ E) F) as F'. assert (seq_reverse s' = Ok s) as E' by (destruct (reverse_ok s) as (t & A & B & _); congruence).
  split; [apply (H s s' E F)|apply (H s' s E' F')].
Qed.
Lemma Forall2_impl {A B} (P Q : A -> B -> Prop) a b : (forall x y, P x y -> Q x y) -> Forall2 P a b -> Forall2 Q a b.
Proof. induction 2; constructor; auto. Qed.
Lemma Forall2_length {A B} (P : A -> B -> Prop) a b : Forall2 P a b -> length a = length b.
Proof. induction 1; cbn; congruence. Qed.
