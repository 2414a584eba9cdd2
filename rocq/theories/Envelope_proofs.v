(** Proofs about the envelope model. *)
From Coq Require Import ZArith Bool List Lia ZifyBool Permutation.
From Flocq Require Import Core IEEE754.BinarySingleNaN.
From Verif Require Import Base F64 F64Facts Coordinate_model Envelope_model Envelope_spec.
Import ListNotations.
Open Scope Z_scope.

Lemma lef_rank x y : lef x y <-> nn x /\ nn y /\ rank x <= rank y.
Proof.
  unfold lef. split.
  - intros H. destruct (fleb_nn _ _ H). rewrite fleb_rank in H by assumption. repeat split; auto; lia.
  - intros (A & B & C). rewrite fleb_rank by assumption. lia.
Qed.
Lemma lef_refl x : nn x -> lef x x.
Proof. intros. apply lef_rank. repeat split; try assumption; lia. Qed.
Lemma lef_trans x y z : lef x y -> lef y z -> lef x z.
Proof. rewrite !lef_rank. intuition lia. Qed.

Ltac lefs := repeat match goal with
  | H : lef _ _ |- _ => apply lef_rank in H; destruct H as (? & ? & ?)
  end.

Lemma is_box_ranks e : is_box e ->
  nn (minx e) /\ nn (maxx e) /\ nn (miny e) /\ nn (maxy e) /\
  rank (minx e) <= rank (maxx e) /\ rank (miny e) <= rank (maxy e).
Proof. intros [A B]. lefs. tauto. Qed.

Ltac boxes := repeat match goal with
  | H : is_box ?e |- _ =>
     destruct (is_box_ranks e H) as (? & ? & ? & ? & ? & ?); clear H
  end.

Lemma null_default : is_null env_default = true.
Proof. reflexivity. Qed.
Lemma null_box e : is_box e -> is_null e = false.
Proof. intros H. boxes. unfold is_null. rklia. Qed.
Lemma wf_null e : wf_env e -> is_null e = true -> e = env_default.
Proof. intros [->|H] N; [reflexivity|]. rewrite null_box in N by assumption. discriminate. Qed.
Lemma wf_not_null e : wf_env e -> is_null e = false -> is_box e.
Proof. intros [->|H] N; [discriminate|assumption]. Qed.
Lemma wf_cases e : wf_env e -> (e = env_default /\ is_null e = true) \/ (is_box e /\ is_null e = false).
Proof. intros [->|H]; [left|right]; split; auto. now apply null_box. Qed.

Lemma in_box_default x y : ~ in_box env_default x y.
Proof.
  intros (A & B & _). assert (lef (minx env_default) (maxx env_default)) by (eapply lef_trans; eauto).
  discriminate.
Qed.
Lemma in_box_is_box e x y : in_box e x y -> is_box e.
Proof. intros (A & B & C & D). split; eapply lef_trans; eauto. Qed.
Lemma corner_in e : is_box e -> in_box e (minx e) (miny e).
Proof. intros H. boxes. unfold in_box. rewrite !lef_rank. repeat split; auto; lia. Qed.
Lemma corner_in' e : is_box e -> in_box e (maxx e) (maxy e).
Proof. intros H. boxes. unfold in_box. rewrite !lef_rank. repeat split; auto; lia. Qed.

(** covers_xy decides in_box *)
Lemma covers_xy_spec e x y : wf_env e -> covers_xy e x y = true <-> in_box e x y.
Proof.
  intros W. unfold covers_xy, in_box, lef.
  destruct (wf_cases e W) as [[-> N]|[Bx N]]; rewrite N.
  - split; [easy|]. intros H. exfalso. now apply (in_box_default x y).
  - unfold fgeb. change (@Bleb 53 1024) with fleb. rewrite !andb_true_iff. tauto.
Qed.

Lemma intersects_xy_spec e x y : wf_env e -> nn x -> nn y -> intersects_xy e x y = covers_xy e x y.
Proof.
  intros W Nx Ny. unfold intersects_xy, covers_xy.
  destruct (wf_cases e W) as [[-> N]|[Bx N]]; rewrite N; [reflexivity|]. boxes.
  rklia.
Qed.

Lemma subset_ranks a b : is_box a -> is_box b ->
  (subset a b <-> rank (minx b) <= rank (minx a) /\ rank (maxx a) <= rank (maxx b) /\
                  rank (miny b) <= rank (miny a) /\ rank (maxy a) <= rank (maxy b)).
Proof.
  intros Ba Bb. split.
  - intros S. pose proof (S _ _ (corner_in a Ba)) as (P1 & P2 & P3 & P4).
    pose proof (S _ _ (corner_in' a Ba)) as (Q1 & Q2 & Q3 & Q4). lefs. lia.
  - intros H x y (A & B & C & D). boxes. lefs.
    unfold in_box. rewrite !lef_rank. repeat split; auto; lia.
Qed.

Lemma covers_envelope_spec a b : wf_env a -> wf_env b ->
  (covers_envelope a b = true <-> is_null a = false /\ is_null b = false /\ subset b a).
Proof.
  intros Wa Wb. unfold covers_envelope.
  destruct (wf_cases a Wa) as [[-> Na]|[Ba Na]]; rewrite Na; [easy|].
  destruct (wf_cases b Wb) as [[-> Nb]|[Bb Nb]]; rewrite Nb; [easy|].
  rewrite (subset_ranks b a) by assumption. boxes. rk. cbn [orb]. split; [intuition lia|lia].
Qed.

Lemma subset_default a : subset env_default a.
Proof. intros x y H. now apply in_box_default in H. Qed.

Lemma is_box_wf e : is_box e -> wf_env e.
Proof. now right. Qed.
Lemma default_wf : wf_env env_default.
Proof. now left. Qed.

Lemma env_new_xy_box x1 x2 y1 y2 : nn x1 -> nn x2 -> nn y1 -> nn y2 ->
  is_box (env_new_xy x1 x2 y1 y2).
Proof.
  intros. unfold env_new_xy, is_box; cbn [minx maxx miny maxy]. rewrite !lef_rank.
  splitif; rk; repeat split; auto; lia.
Qed.
Lemma env_new_coordinates_box p q : nn_xy p -> nn_xy q -> is_box (env_new_coordinates p q).
Proof. intros [? ?] [? ?]. now apply env_new_xy_box. Qed.

Lemma expand_xy_box e x y : wf_env e -> nn x -> nn y -> is_box (expand_to_include_xy e x y).
Proof.
  intros W Nx Ny. unfold expand_to_include_xy.
  destruct (wf_cases e W) as [[-> N]|[B N]]; rewrite N; unfold is_box; cbn [minx maxx miny maxy].
  - split; now apply lef_refl.
  - boxes. rewrite !lef_rank. splitif; rk; repeat split; auto; lia.
Qed.

(** Points of the expanded box: the smallest box with the point and the old box. *)
Lemma expand_xy_least e x y b : wf_env e -> nn x -> nn y -> wf_env b ->
  subset (expand_to_include_xy e x y) b <-> (in_box b x y /\ subset e b).
Proof.
  intros W Nx Ny Wb. pose proof (expand_xy_box e x y W Nx Ny) as Bx.
  destruct (wf_cases b Wb) as [[-> Nb]|[Bb Nb]].
  { split. intros S. exfalso. apply (in_box_default _ _ (S _ _ (corner_in _ Bx))).
    intros [H _]. now apply in_box_default in H. }
  rewrite subset_ranks by assumption.
  destruct (wf_cases e W) as [[-> N]|[B N]].
  - unfold expand_to_include_xy. rewrite N; cbn [minx maxx miny maxy].
    pose proof (subset_default b). unfold in_box. rewrite !lef_rank.
    boxes. intuition lia.
  - rewrite (subset_ranks e b) by assumption. unfold in_box. rewrite !lef_rank.
    unfold expand_to_include_xy. rewrite N; cbn [minx maxx miny maxy].
    clear Bx. boxes. splitif; rk; intuition lia.
Qed.

Lemma expand_coord_xy e p : expand_to_include_coordinate e p = expand_to_include_xy e (cx p) (cy p).
Proof. reflexivity. Qed.

Lemma envelope_fold_spec pts e : wf_env e -> Forall nn_xy pts ->
  let r := fold_left expand_to_include_coordinate pts e in
  wf_env r /\ (forall b, wf_env b -> (subset r b <-> subset e b /\ Forall (fun p => in_box b (cx p) (cy p)) pts)).
Proof.
  revert e. induction pts as [|p pts IH]; intros e W F; cbn [fold_left].
  - split; [assumption|]. intros b Wb. intuition.
  - inversion_clear F as [|? ? [Nx Ny] F'].
    rewrite expand_coord_xy.
    pose proof (expand_xy_box e _ _ W Nx Ny) as Bx.
    destruct (IH (expand_to_include_xy e (cx p) (cy p)) (is_box_wf _ Bx) F') as [W' H'].
    split; [exact W'|]. intros b Wb. rewrite H' by assumption.
    rewrite expand_xy_least by assumption. rewrite Forall_cons_iff. tauto.
Qed.

Lemma fold_box pts e : is_box e -> Forall nn_xy pts -> is_box (fold_left expand_to_include_coordinate pts e).
Proof.
  revert e. induction pts as [|p pts IH]; intros e B F; cbn [fold_left]; [assumption|].
  inversion_clear F as [|? ? [Nx Ny] F']. apply IH; [|assumption].
  rewrite expand_coord_xy. now apply expand_xy_box; [right| |].
Qed.
Lemma envelope_of_box pts : Forall nn_xy pts -> pts <> [] -> is_box (envelope_of pts).
Proof.
  destruct pts as [|p pts]; [easy|]. intros F _. inversion_clear F as [|? ? [Nx Ny] F'].
  unfold envelope_of; cbn [fold_left]. apply fold_box; [|assumption].
  rewrite expand_coord_xy. apply expand_xy_box; auto. now left.
Qed.

Lemma subset_refl a : subset a a.
Proof. intros x y; auto. Qed.

Lemma envelope_of_wf pts : Forall nn_xy pts -> wf_env (envelope_of pts).
Proof. intros F. apply (envelope_fold_spec pts env_default default_wf F). Qed.

Lemma envelope_of_least pts b : Forall nn_xy pts -> wf_env b ->
  (subset (envelope_of pts) b <-> Forall (fun p => in_box b (cx p) (cy p)) pts).
Proof.
  intros F Wb. destruct (envelope_fold_spec pts env_default default_wf F) as [_ H].
  unfold envelope_of. rewrite H by assumption. intuition. apply subset_default.
Qed.

Lemma envelope_of_covers pts p : Forall nn_xy pts -> In p pts ->
  in_box (envelope_of pts) (cx p) (cy p).
Proof.
  intros F I. pose proof (proj1 (envelope_of_least pts _ F (envelope_of_wf pts F)) (subset_refl _)) as H.
  rewrite Forall_forall in H. now apply H.
Qed.

Lemma env_equals_spec a b : wf_env a -> wf_env b -> (env_equals a b = true <-> same_points a b).
Proof.
  intros Wa Wb. unfold env_equals.
  destruct (wf_cases a Wa) as [[-> Na]|[Ba Na]]; rewrite Na.
  - destruct (wf_cases b Wb) as [[-> Nb]|[Bb Nb]]; rewrite Nb.
    + split; [|easy]. intros _ x y. tauto.
    + split; [easy|]. intros S. exfalso. apply (in_box_default _ _ (proj2 (S _ _) (corner_in b Bb))).
  - destruct (wf_cases b Wb) as [[-> Nb]|[Bb Nb]].
    + split.
      * rewrite !andb_true_iff. intros (((A & _) & C) & _).
        assert (H := Ba). boxes.
        rewrite feqb_rank in A, C by easy. cbn [minx maxx env_default] in A, C.
        change (rank (fneg f1)) with (- rank f1) in A.
        assert (0 < rank f1) by reflexivity. change (rank f0) with 0 in C. lia.
      * intros S. exfalso. apply (in_box_default _ _ (proj1 (S _ _) (corner_in a Ba))).
    + assert (same_points a b <-> subset a b /\ subset b a) as ->.
      { unfold same_points, subset. split; [intros H; split; intros; now apply H|intros [H1 H2] x y; split; auto]. }
      rewrite !subset_ranks by assumption. boxes. rk. split; [intuition lia|lia].
Qed.

Lemma perm_same pts pts' : Forall nn_xy pts -> Permutation pts pts' ->
  same_points (envelope_of pts) (envelope_of pts').
Proof.
  intros F P. assert (Forall nn_xy pts') as F' by (eapply Permutation_Forall; eauto).
  intros x y. split.
  - apply (proj2 (envelope_of_least pts (envelope_of pts') F (envelope_of_wf _ F'))).
    apply Forall_forall. intros p I. apply envelope_of_covers; [assumption|]. eapply Permutation_in; eauto.
  - apply (proj2 (envelope_of_least pts' (envelope_of pts) F' (envelope_of_wf _ F))).
    apply Forall_forall. intros p I. apply envelope_of_covers; [assumption|].
    eapply Permutation_in; [apply Permutation_sym|]; eauto.
Qed.

(** intersects *)
Lemma fmaxsel a b : nn a -> nn b -> nn (if fgtb a b then a else b) /\
  rank (if fgtb a b then a else b) = Z.max (rank a) (rank b).
Proof. intros. splitif; rk; split; auto; lia. Qed.
Lemma fminsel a b : nn a -> nn b -> nn (if fltb a b then a else b) /\
  rank (if fltb a b then a else b) = Z.min (rank a) (rank b).
Proof. intros. splitif; rk; split; auto; lia. Qed.

Lemma intersects_ranks a b : is_box a -> is_box b ->
  (intersects_envelope a b = true <->
   rank (minx b) <= rank (maxx a) /\ rank (minx a) <= rank (maxx b) /\
   rank (miny b) <= rank (maxy a) /\ rank (miny a) <= rank (maxy b)).
Proof.
  intros Ba Bb. unfold intersects_envelope. rewrite !null_box by assumption. boxes. rk. cbn [orb].
  split; [intuition lia|lia].
Qed.

Lemma intersects_spec a b : wf_env a -> wf_env b ->
  (intersects_envelope a b = true <-> exists x y, in_box a x y /\ in_box b x y).
Proof.
  intros Wa Wb.
  destruct (wf_cases a Wa) as [[-> Na]|[Ba Na]].
  { unfold intersects_envelope; rewrite Na; cbn [orb].
    split; [easy|]. intros (x & y & H & _). now apply in_box_default in H. }
  destruct (wf_cases b Wb) as [[-> Nb]|[Bb Nb]].
  { unfold intersects_envelope; rewrite Nb, Na; cbn [orb].
    split; [easy|]. intros (x & y & _ & H). now apply in_box_default in H. }
  rewrite intersects_ranks by assumption. split.
  - intros H. boxes.
    exists (if fgtb (minx a) (minx b) then minx a else minx b),
           (if fgtb (miny a) (miny b) then miny a else miny b).
    destruct (fmaxsel (minx a) (minx b)); auto. destruct (fmaxsel (miny a) (miny b)); auto.
    unfold in_box. rewrite !lef_rank. repeat split; auto; lia.
  - intros (x & y & (A1 & A2 & A3 & A4) & (B1 & B2 & B3 & B4)). lefs. lia.
Qed.

Lemma intersects_sym a b : wf_env a -> wf_env b -> intersects_envelope a b = intersects_envelope b a.
Proof.
  intros Wa Wb. apply eq_true_iff_eq. rewrite !intersects_spec by assumption.
  split; intros (x & y & H1 & H2); eauto.
Qed.

Lemma intersection_box a b : wf_env a -> wf_env b ->
  wf_env (intersection_envelope a b) /\
  (forall x y, in_box (intersection_envelope a b) x y <-> in_box a x y /\ in_box b x y).
Proof.
  intros Wa Wb. unfold intersection_envelope.
  destruct (intersects_envelope a b) eqn:I.
  - assert (is_null a = false) as Na.
    { unfold intersects_envelope in I. destruct (is_null a); [discriminate|reflexivity]. }
    assert (is_null b = false) as Nb.
    { unfold intersects_envelope in I. destruct (is_null b); [|reflexivity]. now rewrite Na in I. }
    rewrite Na, Nb. cbn [orb negb].
    pose proof (wf_not_null _ Wa Na) as Ba. pose proof (wf_not_null _ Wb Nb) as Bb.
    apply intersects_ranks in I; try assumption. boxes.
    pose proof (fmaxsel (minx a) (minx b)) as [? ?]; auto.
    pose proof (fmaxsel (miny a) (miny b)) as [? ?]; auto.
    pose proof (fminsel (maxx a) (maxx b)) as [? ?]; auto.
    pose proof (fminsel (maxy a) (maxy b)) as [? ?]; auto.
    set (x1 := if fgtb (minx a) (minx b) then minx a else minx b) in *.
    set (y1 := if fgtb (miny a) (miny b) then miny a else miny b) in *.
    set (x2 := if fltb (maxx a) (maxx b) then maxx a else maxx b) in *.
    set (y2 := if fltb (maxy a) (maxy b) then maxy a else maxy b) in *.
    split. { right. now apply env_new_xy_box. }
    intros x y. unfold in_box, env_new_xy; cbn [minx maxx miny maxy]. rewrite !lef_rank.
    splitif; rk; intuition (auto; lia).
  - assert ((is_null a || is_null b || negb false)%bool = true) as -> by (destruct (is_null a), (is_null b); reflexivity).
    split. now left. intros x y. split.
    + intros H. now apply in_box_default in H.
    + intros [H1 H2]. assert (intersects_envelope a b = true) as E; [|congruence].
      apply intersects_spec; eauto.
Qed.

Lemma intersection_null a b : wf_env a -> wf_env b ->
  is_null (intersection_envelope a b) = negb (intersects_envelope a b).
Proof.
  intros Wa Wb. destruct (intersection_box a b Wa Wb) as [W H].
  destruct (intersects_envelope a b) eqn:I.
  - apply intersects_spec in I; try assumption. destruct I as (x & y & A & B).
    apply null_box. apply (in_box_is_box _ x y). apply H. now split.
  - unfold intersection_envelope. rewrite I. now destruct (is_null a), (is_null b).
Qed.

(** join *)
Lemma expand_env_wf a b : wf_env a -> wf_env b -> wf_env (expand_to_include_envelope a b).
Proof.
  intros Wa Wb. unfold expand_to_include_envelope.
  destruct (wf_cases b Wb) as [[-> Nb]|[Bb Nb]]; rewrite Nb; [assumption|].
  destruct (wf_cases a Wa) as [[-> Na]|[Ba Na]]; rewrite Na.
  - right. destruct b as [b1 b2 b3 b4]; assumption.
  - right. boxes. unfold is_box; cbn [minx maxx miny maxy]. rewrite !lef_rank.
    splitif; rk; repeat split; auto; lia.
Qed.

Lemma expand_env_least a b c : wf_env a -> wf_env b -> wf_env c ->
  (subset (expand_to_include_envelope a b) c <-> subset a c /\ subset b c).
Proof.
  intros Wa Wb Wc. pose proof (expand_env_wf a b Wa Wb) as Wr. revert Wr.
  unfold expand_to_include_envelope.
  destruct (wf_cases b Wb) as [[-> Nb]|[Bb Nb]]; rewrite Nb.
  { intros _. pose proof (subset_default c). tauto. }
  destruct (wf_cases a Wa) as [[-> Na]|[Ba Na]]; rewrite Na.
  { intros _. pose proof (subset_default c). destruct b as [b1 b2 b3 b4]; cbn [minx maxx miny maxy]. tauto. }
  set (r := mkE _ _ _ _). intros Wr.
  destruct (wf_cases c Wc) as [[-> Nc]|[Bc Nc]].
  { assert (is_box r) as Br.
    { destruct Wr as [E|]; [|assumption]. exfalso.
      assert (is_null r = true) as N by now rewrite E.
      unfold is_null, r in N; cbn [minx maxx] in N. boxes.
      splitif; rk; lia. }
    split.
    - intros S. exfalso. apply (in_box_default _ _ (S _ _ (corner_in _ Br))).
    - intros [S _]. exfalso. apply (in_box_default _ _ (S _ _ (corner_in _ Ba))). }
  assert (is_box r) as Br.
  { destruct Wr as [E|]; [|assumption]. exfalso.
      assert (is_null r = true) as N by now rewrite E.
      unfold is_null, r in N; cbn [minx maxx] in N. boxes.
      splitif; rk; lia. }
  rewrite !subset_ranks by assumption. unfold r; cbn [minx maxx miny maxy]. clear Br. boxes.
  splitif; rk; intuition lia.
Qed.

(** A null box has no points; equal least upper bounds have the same points. *)
Lemma same_by_upper a b : wf_env a -> wf_env b ->
  (forall c, wf_env c -> (subset a c <-> subset b c)) -> same_points a b.
Proof.
  intros Wa Wb H x y. split.
  - apply (proj2 (H b Wb)). apply subset_refl.
  - apply (proj1 (H a Wa)). apply subset_refl.
Qed.

(** expand_by *)
Lemma expand_by_delta e d : expand_by e d = expand_by_delta_xy e d d.
Proof. reflexivity. Qed.

Lemma expand_by_delta_wf e dx dy : wf_env e -> fis_finite dx = true -> fis_finite dy = true ->
  wf_env (expand_by_delta_xy e dx dy).
Proof.
  intros W Fx Fy. unfold expand_by_delta_xy.
  destruct (wf_cases e W) as [[-> N]|[B N]]; rewrite N; [now left|]. boxes.
  cbv zeta. cbn [minx maxx miny maxy].
  pose proof (nn_fsub_fin (minx e) dx). pose proof (nn_fadd_fin (maxx e) dx).
  pose proof (nn_fsub_fin (miny e) dy). pose proof (nn_fadd_fin (maxy e) dy).
  destruct (_ || _) eqn:C; [now left|right].
  unfold is_box; cbn [minx maxx miny maxy]. rewrite !lef_rank. rk. repeat split; auto; lia.
Qed.

Lemma expand_by_grow e dx dy : wf_env e -> fis_finite dx = true -> fis_finite dy = true ->
  lef f0 dx -> lef f0 dy -> subset e (expand_by_delta_xy e dx dy).
Proof.
  intros W Fx Fy Px Py. unfold expand_by_delta_xy.
  destruct (wf_cases e W) as [[-> N]|[B N]]; rewrite N; [apply subset_refl|]. boxes.
  cbv zeta. cbn [minx maxx miny maxy]. lefs. change (rank f0) with 0 in *.
  assert (nn (fsub (minx e) dx)) by (apply nn_fsub_fin; auto).
  assert (nn (fadd (maxx e) dx)) by (apply nn_fadd_fin; auto).
  assert (nn (fsub (miny e) dy)) by (apply nn_fsub_fin; auto).
  assert (nn (fadd (maxy e) dy)) by (apply nn_fadd_fin; auto).
  assert (rank (fsub (minx e) dx) <= rank (minx e)).
  { rewrite fsub_fadd. apply fadd_nonpos_le; auto. now rewrite fneg_fin. rewrite rank_fneg. lia. }
  assert (rank (fsub (miny e) dy) <= rank (miny e)).
  { rewrite fsub_fadd. apply fadd_nonpos_le; auto. now rewrite fneg_fin. rewrite rank_fneg. lia. }
  assert (rank (maxx e) <= rank (fadd (maxx e) dx)) by (apply fadd_nonneg_ge; auto).
  assert (rank (maxy e) <= rank (fadd (maxy e) dy)) by (apply fadd_nonneg_ge; auto).
  destruct (_ || _) eqn:C; [exfalso; rk; lia|].
  intros x y (A1 & A2 & A3 & A4). lefs. unfold in_box; cbn [minx maxx miny maxy]. rewrite !lef_rank.
  repeat split; auto; lia.
Qed.

Lemma expand_by_shrink e dx dy : wf_env e -> fis_finite dx = true -> fis_finite dy = true ->
  lef dx f0 -> lef dy f0 -> subset (expand_by_delta_xy e dx dy) e.
Proof.
  intros W Fx Fy Px Py. unfold expand_by_delta_xy.
  destruct (wf_cases e W) as [[-> N]|[B N]]; rewrite N; [apply subset_refl|]. boxes.
  cbv zeta. cbn [minx maxx miny maxy]. lefs. change (rank f0) with 0 in *.
  assert (nn (fsub (minx e) dx)) by (apply nn_fsub_fin; auto).
  assert (nn (fadd (maxx e) dx)) by (apply nn_fadd_fin; auto).
  assert (nn (fsub (miny e) dy)) by (apply nn_fsub_fin; auto).
  assert (nn (fadd (maxy e) dy)) by (apply nn_fadd_fin; auto).
  assert (rank (minx e) <= rank (fsub (minx e) dx)).
  { rewrite fsub_fadd. apply fadd_nonneg_ge; auto. now rewrite fneg_fin. rewrite rank_fneg. lia. }
  assert (rank (miny e) <= rank (fsub (miny e) dy)).
  { rewrite fsub_fadd. apply fadd_nonneg_ge; auto. now rewrite fneg_fin. rewrite rank_fneg. lia. }
  assert (rank (fadd (maxx e) dx) <= rank (maxx e)) by (apply fadd_nonpos_le; auto).
  assert (rank (fadd (maxy e) dy) <= rank (maxy e)) by (apply fadd_nonpos_le; auto).
  destruct (_ || _) eqn:C; [apply subset_default|].
  intros x y (A1 & A2 & A3 & A4). cbn [minx maxx miny maxy] in *. lefs. unfold in_box. rewrite !lef_rank.
  repeat split; auto; lia.
Qed.

Lemma translate_box e tx ty : is_box e -> fis_finite tx = true -> fis_finite ty = true ->
  is_box (env_translate e tx ty) /\
  (forall x y, in_box e x y -> in_box (env_translate e tx ty) (fadd x tx) (fadd y ty)).
Proof.
  intros B Fx Fy. unfold env_translate. rewrite null_box by assumption. boxes.
  assert (nn (fadd (minx e) tx)) by (apply nn_fadd_fin; auto).
  assert (nn (fadd (maxx e) tx)) by (apply nn_fadd_fin; auto).
  assert (nn (fadd (miny e) ty)) by (apply nn_fadd_fin; auto).
  assert (nn (fadd (maxy e) ty)) by (apply nn_fadd_fin; auto).
  assert (rank (fadd (minx e) tx) <= rank (fadd (maxx e) tx)) by (apply fadd_le; auto).
  assert (rank (fadd (miny e) ty) <= rank (fadd (maxy e) ty)) by (apply fadd_le; auto).
  cbv zeta. split.
  - unfold is_box; cbn [minx maxx miny maxy]. rewrite !lef_rank.
    splitif; rk; repeat split; auto; lia.
  - intros x y (A1 & A2 & A3 & A4). lefs. unfold in_box; cbn [minx maxx miny maxy].
    assert (nn (fadd x tx)) by (apply nn_fadd_fin; auto).
    assert (nn (fadd y ty)) by (apply nn_fadd_fin; auto).
    pose proof (fadd_le (minx e) x tx). pose proof (fadd_le x (maxx e) tx).
    pose proof (fadd_le (miny e) y ty). pose proof (fadd_le y (maxy e) ty).
    rewrite !lef_rank. splitif; rk; repeat split; auto; intuition lia.
Qed.

Lemma apply_op_wf e o : wf_env e -> op_ok o -> wf_env (apply_op e o).
Proof.
  intros W O. destruct o; cbn [op_ok apply_op] in *.
  - right. now apply expand_xy_box.
  - now apply expand_env_wf.
  - rewrite expand_by_delta. now apply expand_by_delta_wf.
  - now apply expand_by_delta_wf.
  - destruct (wf_cases e W) as [[-> N]|[B N]]; [now left|]. right. now apply translate_box.
  - now apply intersection_box.
  - now left.
Qed.
Lemma apply_ops_wf ops e : wf_env e -> Forall op_ok ops -> wf_env (fold_left apply_op ops e).
Proof.
  revert e. induction ops as [|o ops IH]; intros e W F; cbn [fold_left]; [assumption|].
  inversion_clear F. apply IH; [|assumption]. now apply apply_op_wf.
Qed.

(** compare *)
Lemma compare_ranks a b : is_box a -> is_box b ->
  compare_to_envelope a b =
  lex (rank (minx a)) (rank (minx b)) (lex (rank (miny a)) (rank (miny b))
   (lex (rank (maxx a)) (rank (maxx b)) (lex (rank (maxy a)) (rank (maxy b)) 0))).
Proof. intros Ba Bb. unfold compare_to_envelope. rewrite !null_box by assumption. boxes. rk. reflexivity. Qed.

Lemma compare_antisym a b : wf_env a -> wf_env b -> compare_to_envelope b a = - compare_to_envelope a b.
Proof.
  intros Wa Wb.
  destruct (wf_cases a Wa) as [[-> Na]|[Ba Na]], (wf_cases b Wb) as [[-> Nb]|[Bb Nb]];
    try (unfold compare_to_envelope; rewrite ?Na, ?Nb; reflexivity).
  rewrite !compare_ranks by assumption. now repeat apply lex_antisym.
Qed.
Lemma compare_trans a b c : wf_env a -> wf_env b -> wf_env c ->
  compare_to_envelope a b <= 0 -> compare_to_envelope b c <= 0 -> compare_to_envelope a c <= 0.
Proof.
  intros Wa Wb Wc.
  destruct (wf_cases a Wa) as [[-> Na]|[Ba Na]], (wf_cases b Wb) as [[-> Nb]|[Bb Nb]],
    (wf_cases c Wc) as [[-> Nc]|[Bc Nc]];
    try (unfold compare_to_envelope; rewrite ?Na, ?Nb, ?Nc; lia).
  rewrite !compare_ranks by assumption. now repeat apply lex_trans.
Qed.
Lemma compare_zero a b : wf_env a -> wf_env b -> (compare_to_envelope a b = 0 <-> env_equals a b = true).
Proof.
  intros Wa Wb.
  destruct (wf_cases a Wa) as [[-> Na]|[Ba Na]], (wf_cases b Wb) as [[-> Nb]|[Bb Nb]].
  - easy.
  - unfold compare_to_envelope, env_equals; rewrite Na, Nb. easy.
  - rewrite env_equals_spec by assumption. unfold compare_to_envelope; rewrite Na, Nb.
    split; [easy|]. intros S. exfalso. apply (in_box_default _ _ (proj1 (S _ _) (corner_in a Ba))).
  - rewrite compare_ranks by assumption. unfold env_equals. rewrite Na. boxes. rk.
    rewrite !lex_zero. lia.
Qed.

(** distance *)
Definition gap1 (a1 a2 b1 b2 : f64) : f64 :=
  if fltb a2 b1 then fsub b1 a2 else if fgtb a1 b2 then fsub a1 b2 else f0.

Lemma distance_symmetric hypot a b : wf_env a -> wf_env b -> is_null a = false -> is_null b = false ->
  distance_envelope hypot a b = distance_envelope hypot b a.
Proof.
  intros Wa Wb Na Nb. unfold distance_envelope. rewrite (intersects_sym b a) by assumption.
  destruct (intersects_envelope a b) eqn:I; [reflexivity|].
  pose proof (wf_not_null _ Wa Na) as Ba. pose proof (wf_not_null _ Wb Nb) as Bb. boxes.
  assert (forall a1 a2 b1 b2, nn a1 -> nn a2 -> nn b1 -> nn b2 -> rank a1 <= rank a2 -> rank b1 <= rank b2 ->
     (if fltb a2 b1 then fsub b1 a2 else if fgtb a1 b2 then fsub a1 b2 else f0) =
     (if fltb b2 a1 then fsub a1 b2 else if fgtb b1 a2 then fsub b1 a2 else f0)) as G.
  { intros. splitif; rk; try lia; reflexivity. }
  rewrite (G (minx a) (maxx a) (minx b) (maxx b)) by assumption.
  rewrite (G (miny a) (maxy a) (miny b) (maxy b)) by assumption. reflexivity.
Qed.

Definition fin_env e := fis_finite (minx e) = true /\ fis_finite (maxx e) = true /\
  fis_finite (miny e) = true /\ fis_finite (maxy e) = true.

Lemma feqb0_pos x : nn x -> 0 < rank x -> feqb x f0 = false.
Proof. intros. rewrite feqb_rank by easy. change (rank f0) with 0. lia. Qed.

Lemma gap1_spec a1 a2 b1 b2 : fis_finite a1 = true -> fis_finite a2 = true ->
  fis_finite b1 = true -> fis_finite b2 = true ->
  nn (gap1 a1 a2 b1 b2) /\ 0 <= rank (gap1 a1 a2 b1 b2) /\
  (rank a2 < rank b1 \/ rank b2 < rank a1 <-> 0 < rank (gap1 a1 a2 b1 b2)).
Proof.
  intros A1 A2 B1 B2. pose proof (nn_finite _ A1). pose proof (nn_finite _ A2).
  pose proof (nn_finite _ B1). pose proof (nn_finite _ B2).
  unfold gap1. destruct (fltb a2 b1) eqn:E; [|destruct (fgtb a1 b2) eqn:E']; rk; zb.
  - destruct (fsub_pos b1 a2 B1 A2 E). split; auto. lia.
  - destruct (fsub_pos a1 b2 A1 B2 E'). split; auto. lia.
  - split; [reflexivity|]. change (rank f0) with 0. lia.
Qed.

Lemma distance_cases hypot a b : is_box a -> is_box b -> fin_env a -> fin_env b ->
  intersects_envelope a b = false ->
  let gx := gap1 (minx a) (maxx a) (minx b) (maxx b) in
  let gy := gap1 (miny a) (maxy a) (miny b) (maxy b) in
  nn gx /\ nn gy /\ 0 <= rank gx /\ 0 <= rank gy /\ (0 < rank gx \/ 0 < rank gy) /\
  distance_envelope hypot a b = if feqb gx f0 then gy else if feqb gy f0 then gx else hypot gx gy.
Proof.
  intros Ba Bb (F1&F2&F3&F4) (G1&G2&G3&G4) I gx gy.
  assert (~ (rank (minx b) <= rank (maxx a) /\ rank (minx a) <= rank (maxx b) /\
   rank (miny b) <= rank (maxy a) /\ rank (miny a) <= rank (maxy b))) as D.
  { rewrite <- intersects_ranks by assumption. congruence. }
  destruct (gap1_spec (minx a) (maxx a) (minx b) (maxx b)) as (X1 & X2 & X3); auto.
  destruct (gap1_spec (miny a) (maxy a) (miny b) (maxy b)) as (Y1 & Y2 & Y3); auto.
  fold gx in X1, X2, X3. fold gy in Y1, Y2, Y3.
  split; auto. split; auto. split; auto. split; auto. split. lia.
  unfold distance_envelope. rewrite I. reflexivity.
Qed.

Lemma between_rank a b x : between a b x <-> nn a /\ nn b /\ nn x /\
  (rank a <= rank x <= rank b \/ rank b <= rank x <= rank a).
Proof. unfold between. rewrite !lef_rank. intuition. Qed.

Lemma in_span_box p q x y : nn_xy p -> nn_xy q ->
  (in_span p q x y <-> in_box (env_new_coordinates p q) x y).
Proof.
  intros [? ?] [? ?]. unfold in_span, in_box, env_new_coordinates; cbn [minx maxx miny maxy].
  rewrite !between_rank, !lef_rank.
  assert (forall a b z, nn a -> nn b ->
    ((nn a /\ nn b /\ nn z /\ (rank a <= rank z <= rank b \/ rank b <= rank z <= rank a)) <->
     (nn (if fltb a b then a else b) /\ nn z /\ rank (if fltb a b then a else b) <= rank z) /\
     (nn z /\ nn (if fltb a b then b else a) /\ rank z <= rank (if fltb a b then b else a)))) as G.
  { intros a b z ? ?. destruct (fltb a b) eqn:E; rk; zb; intuition (auto; lia). }
  rewrite (G (cx p) (cx q) x), (G (cy p) (cy q) y) by assumption. tauto.
Qed.

Lemma intersects_3_spec p1 p2 q : nn_xy p1 -> nn_xy p2 -> nn_xy q ->
  (intersects_3 p1 p2 q = true <-> in_span p1 p2 (cx q) (cy q)).
Proof.
  intros [? ?] [? ?] [? ?]. unfold intersects_3, in_span. rewrite !between_rank.
  pose proof (fminsel (cx p1) (cx p2)) as [? ?]; auto.
  pose proof (fminsel (cy p1) (cy p2)) as [? ?]; auto.
  pose proof (fmaxsel (cx p1) (cx p2)) as [? ?]; auto.
  pose proof (fmaxsel (cy p1) (cy p2)) as [? ?]; auto.
  cbv zeta.
  set (a := if fltb (cx p1) (cx p2) then _ else _) in *.
  set (b := if fgtb (cx p1) (cx p2) then _ else _) in *.
  set (c := if fltb (cy p1) (cy p2) then _ else _) in *.
  set (d := if fgtb (cy p1) (cy p2) then _ else _) in *.
  clearbody a b c d. splitif; rk; intuition (auto; try discriminate; lia).
Qed.

Lemma fmin_rank a b : nn a -> nn b -> nn (fmin a b) /\ rank (fmin a b) = Z.min (rank a) (rank b).
Proof.
  intros A B. unfold fmin. rewrite A, B. destruct (fltb b a) eqn:E; rk; zb; split; auto; lia.
Qed.
Lemma fmax_rank a b : nn a -> nn b -> nn (fmax a b) /\ rank (fmax a b) = Z.max (rank a) (rank b).
Proof.
  intros A B. unfold fmax. rewrite A, B. destruct (fltb a b) eqn:E; rk; zb; split; auto; lia.
Qed.

Lemma env_new_coordinates_ranks p q : nn_xy p -> nn_xy q ->
  let e := env_new_coordinates p q in
  rank (minx e) = Z.min (rank (cx p)) (rank (cx q)) /\ rank (maxx e) = Z.max (rank (cx p)) (rank (cx q)) /\
  rank (miny e) = Z.min (rank (cy p)) (rank (cy q)) /\ rank (maxy e) = Z.max (rank (cy p)) (rank (cy q)).
Proof.
  intros [? ?] [? ?]. unfold env_new_coordinates; cbn [minx maxx miny maxy].
  destruct (fltb (cx p) (cx q)) eqn:E, (fltb (cy p) (cy q)) eqn:E'; rk; zb; lia.
Qed.

Lemma intersects_4_env p1 p2 q1 q2 : nn_xy p1 -> nn_xy p2 -> nn_xy q1 -> nn_xy q2 ->
  intersects_4 p1 p2 q1 q2 =
  intersects_envelope (env_new_coordinates p1 p2) (env_new_coordinates q1 q2).
Proof.
  intros P1 P2 Q1 Q2. apply eq_true_iff_eq.
  rewrite intersects_ranks by now apply env_new_coordinates_box.
  pose proof (env_new_coordinates_ranks p1 p2 P1 P2) as (A1 & A2 & A3 & A4).
  pose proof (env_new_coordinates_ranks q1 q2 Q1 Q2) as (B1 & B2 & B3 & B4).
  rewrite A1, A2, A3, A4, B1, B2, B3, B4. clear A1 A2 A3 A4 B1 B2 B3 B4.
  destruct P1, P2, Q1, Q2.
  unfold intersects_4.
  destruct (fmin_rank (cx q1) (cx q2)) as [? E1]; auto. destruct (fmax_rank (cx q1) (cx q2)) as [? E2]; auto.
  destruct (fmin_rank (cx p1) (cx p2)) as [? E3]; auto. destruct (fmax_rank (cx p1) (cx p2)) as [? E4]; auto.
  destruct (fmin_rank (cy q1) (cy q2)) as [? E5]; auto. destruct (fmax_rank (cy q1) (cy q2)) as [? E6]; auto.
  destruct (fmin_rank (cy p1) (cy p2)) as [? E7]; auto. destruct (fmax_rank (cy p1) (cy p2)) as [? E8]; auto.
  cbv zeta. rk. rewrite E1, E2, E3, E4, E5, E6, E7, E8.
  destruct (Z.ltb_spec (Z.max (rank (cx q1)) (rank (cx q2))) (Z.min (rank (cx p1)) (rank (cx p2)))); [lia|].
  destruct (Z.ltb_spec (Z.max (rank (cx p1)) (rank (cx p2))) (Z.min (rank (cx q1)) (rank (cx q2)))); [lia|].
  destruct (Z.ltb_spec (Z.max (rank (cy q1)) (rank (cy q2))) (Z.min (rank (cy p1)) (rank (cy p2)))); [lia|].
  destruct (Z.ltb_spec (Z.max (rank (cy p1)) (rank (cy p2))) (Z.min (rank (cy q1)) (rank (cy q2)))); lia.
Qed.

Lemma intersects_4_spec p1 p2 q1 q2 : nn_xy p1 -> nn_xy p2 -> nn_xy q1 -> nn_xy q2 ->
  (intersects_4 p1 p2 q1 q2 = true <-> exists x y, in_span p1 p2 x y /\ in_span q1 q2 x y).
Proof.
  intros P1 P2 Q1 Q2. rewrite intersects_4_env by assumption.
  rewrite intersects_spec by (right; now apply env_new_coordinates_box).
  split; intros (x & y & A & B); exists x, y; [rewrite !in_span_box by assumption|
    rewrite <- !in_span_box by assumption]; auto.
Qed.

Lemma intersects_ab_env e a b : wf_env e -> nn_xy a -> nn_xy b ->
  intersects_coordinate_ab e a b = intersects_envelope e (env_new_coordinates a b).
Proof.
  intros W A B. destruct (wf_cases e W) as [[-> N]|[Bx N]].
  { reflexivity. }
  apply eq_true_iff_eq. rewrite intersects_ranks by (try assumption; now apply env_new_coordinates_box).
  pose proof (env_new_coordinates_ranks a b A B) as (B1 & B2 & B3 & B4).
  rewrite B1, B2, B3, B4. clear B1 B2 B3 B4. unfold intersects_coordinate_ab. rewrite N.
  destruct A, B. boxes.
  destruct (fminsel (cx a) (cx b)) as [? E1]; auto. destruct (fmaxsel (cx a) (cx b)) as [? E2]; auto.
  destruct (fminsel (cy a) (cy b)) as [? E3]; auto. destruct (fmaxsel (cy a) (cy b)) as [? E4]; auto.
  cbv zeta.
  set (r1 := if fltb (cx a) (cx b) then _ else _) in *.
  set (r2 := if fgtb (cx a) (cx b) then _ else _) in *.
  set (r3 := if fltb (cy a) (cy b) then _ else _) in *.
  set (r4 := if fgtb (cy a) (cy b) then _ else _) in *.
  rewrite <- E1, <- E2, <- E3, <- E4. clearbody r1 r2 r3 r4. clear E1 E2 E3 E4.
  rk.
  destruct (Z.ltb_spec (rank (maxx e)) (rank r1)); [lia|].
  destruct (Z.ltb_spec (rank r2) (rank (minx e))); [lia|].
  destruct (Z.ltb_spec (rank (maxy e)) (rank r3)); [lia|].
  destruct (Z.ltb_spec (rank r4) (rank (miny e))); lia.
Qed.
Lemma intersects_ab_spec e a b : wf_env e -> nn_xy a -> nn_xy b ->
  (intersects_coordinate_ab e a b = true <-> exists x y, in_box e x y /\ in_span a b x y).
Proof.
  intros W A B. rewrite intersects_ab_env by assumption.
  rewrite intersects_spec by (try assumption; right; now apply env_new_coordinates_box).
  split; intros (x & y & P & Q); exists x, y; split; auto; [rewrite in_span_box by assumption|
    rewrite <- in_span_box by assumption]; auto.
Qed.

Lemma gap1_is_gap a1 a2 b1 b2 g : nn a1 -> nn a2 -> nn b1 -> nn b2 -> rank a1 <= rank a2 -> rank b1 <= rank b2 ->
  is_gap a1 a2 b1 b2 g -> g = gap1 a1 a2 b1 b2.
Proof.
  intros ? ? ? ? ? ? [[H ->]|[[H ->]|(H1 & H2 & ->)]]; unfold gap1.
  - now rewrite H.
  - assert (fltb a2 b1 = false) as -> by rklia. unfold fgtb. change (@Bltb 53 1024) with fltb. now rewrite H.
  - rewrite H1. unfold fgtb. change (@Bltb 53 1024) with fltb. now rewrite H2.
Qed.
Lemma posf_rank x : posf x <-> nn x /\ 0 < rank x.
Proof.
  unfold posf. split.
  - intros H. destruct (fltb_nn _ _ H). rk. change (rank f0) with 0 in H. split; auto; lia.
  - intros [A B]. rewrite fltb_rank by easy. change (rank f0) with 0. lia.
Qed.

Lemma distance_positive hypot a b :
  (forall x y, posf x -> posf y -> posf (hypot x y)) ->
  is_box a -> is_box b -> finite_env a -> finite_env b ->
  intersects_envelope a b = false -> posf (distance_envelope hypot a b).
Proof.
  intros Hh Ba Bb Fa Fb I.
  destruct (distance_cases hypot a b Ba Bb Fa Fb I) as (N1 & N2 & P1 & P2 & P & ->).
  set (gx := gap1 (minx a) (maxx a) (minx b) (maxx b)) in *.
  set (gy := gap1 (miny a) (maxy a) (miny b) (maxy b)) in *. clearbody gx gy.
  destruct (feqb gx f0) eqn:E1; [|destruct (feqb gy f0) eqn:E2]; rewrite feqb_rank in * by easy;
    change (rank f0) with 0 in *.
  - apply posf_rank. split; auto; lia.
  - apply posf_rank. split; auto; lia.
  - apply Hh; apply posf_rank; split; auto; lia.
Qed.

Lemma distance_gap hypot a b gx gy : is_box a -> is_box b -> finite_env a -> finite_env b ->
  intersects_envelope a b = false ->
  is_gap (minx a) (maxx a) (minx b) (maxx b) gx ->
  is_gap (miny a) (maxy a) (miny b) (maxy b) gy ->
  (~ posf gx -> distance_envelope hypot a b = gy) /\
  (~ posf gy -> distance_envelope hypot a b = gx) /\
  (posf gx -> posf gy -> distance_envelope hypot a b = hypot gx gy).
Proof.
  intros Ba Bb Fa Fb I Gx Gy.
  destruct (distance_cases hypot a b Ba Bb Fa Fb I) as (N1 & N2 & P1 & P2 & P & E).
  pose proof (is_box_ranks a Ba) as (?&?&?&?&?&?). pose proof (is_box_ranks b Bb) as (?&?&?&?&?&?).
  apply gap1_is_gap in Gx; auto. apply gap1_is_gap in Gy; auto. rewrite <- Gx, <- Gy in *.
  rewrite E, !posf_rank. rewrite !feqb_rank by easy. change (rank f0) with 0.
  destruct (Z.eqb_spec (rank gx) 0), (Z.eqb_spec (rank gy) 0); intuition lia.
Qed.

(** Exact results on a grid. *)
Lemma grid_box_null k e a b c d : grid_box k e a b c d -> is_null e = (b <? a).
Proof. intros (G1 & G2 & _). unfold is_null. now apply (grid_ltb k). Qed.

Lemma expand_exact k e a b c d dx dy p q :
  -1074 <= k <= 970 -> grid_box k e a b c d -> a <= b -> c <= d ->
  grid k dx p -> grid k dy q ->
  Z.abs a + Z.abs b + Z.abs c + Z.abs d + Z.abs p + Z.abs q <= 2 ^ 53 ->
  if (a - p <=? b + p) && (c - q <=? d + q)
  then grid_box k (expand_by_delta_xy e dx dy) (a - p) (b + p) (c - q) (d + q)
  else expand_by_delta_xy e dx dy = env_default.
Proof.
  intros Hk G L1 L2 Gp Gq B. pose proof (grid_box_null _ _ _ _ _ _ G) as N.
  destruct G as (G1 & G2 & G3 & G4).
  unfold expand_by_delta_xy. rewrite N. replace (b <? a) with false by lia.
  assert (grid k (fsub (minx e) dx) (a - p)) as E1 by (apply grid_sub; auto; lia).
  assert (grid k (fadd (maxx e) dx) (b + p)) as E2 by (apply grid_add; auto; lia).
  assert (grid k (fsub (miny e) dy) (c - q)) as E3 by (apply grid_sub; auto; lia).
  assert (grid k (fadd (maxy e) dy) (d + q)) as E4 by (apply grid_add; auto; lia).
  cbn [minx maxx miny maxy]. change fgtb with (fun x y => fltb y x). cbv beta.
  rewrite (grid_ltb k _ _ _ _ E2 E1), (grid_ltb k _ _ _ _ E4 E3).
  destruct (Z.leb_spec (a - p) (b + p)), (Z.leb_spec (c - q) (d + q)),
    (Z.ltb_spec (b + p) (a - p)), (Z.ltb_spec (d + q) (c - q)); try lia; cbn; try reflexivity.
  repeat split; cbn [minx maxx miny maxy]; first [apply E1|apply E2|apply E3|apply E4].
Qed.

Lemma translate_exact k e a b c d dx dy p q :
  -1074 <= k <= 970 -> grid_box k e a b c d -> a <= b -> c <= d ->
  grid k dx p -> grid k dy q ->
  Z.abs a + Z.abs b + Z.abs c + Z.abs d + Z.abs p + Z.abs q <= 2 ^ 53 ->
  grid_box k (env_translate e dx dy) (a + p) (b + p) (c + q) (d + q).
Proof.
  intros Hk G L1 L2 Gp Gq B. pose proof (grid_box_null _ _ _ _ _ _ G) as N.
  destruct G as (G1 & G2 & G3 & G4).
  unfold env_translate. rewrite N. replace (b <? a) with false by lia.
  assert (grid k (fadd (minx e) dx) (a + p)) as E1 by (apply grid_add; auto; lia).
  assert (grid k (fadd (maxx e) dx) (b + p)) as E2 by (apply grid_add; auto; lia).
  assert (grid k (fadd (miny e) dy) (c + q)) as E3 by (apply grid_add; auto; lia).
  assert (grid k (fadd (maxy e) dy) (d + q)) as E4 by (apply grid_add; auto; lia).
  cbv zeta. rewrite (grid_ltb k _ _ _ _ E1 E2), (grid_ltb k _ _ _ _ E3 E4).
  unfold grid_box.
  destruct (Z.ltb_spec (a + p) (b + p)), (Z.ltb_spec (c + q) (d + q)); cbn [minx maxx miny maxy];
  repeat match goal with
  | H : ?a + ?p <= ?b + ?p |- _ => first [replace b with a in * by lia | lia]; clear H
  end;
  repeat split; first [apply E1|apply E2|apply E3|apply E4].
Qed.

Lemma sizes_exact k e a b c d :
  -1074 <= k <= 970 -> -1074 <= k + k <= 970 -> grid_box k e a b c d -> a <= b -> c <= d ->
  Z.abs a + Z.abs b + Z.abs c + Z.abs d <= 2 ^ 53 -> (b - a) * (d - c) <= 2 ^ 53 ->
  grid k (get_width e) (b - a) /\ grid k (get_height e) (d - c) /\
  grid (k + k) (env_get_area e) ((b - a) * (d - c)) /\
  grid k (min_extent e) (Z.min (b - a) (d - c)) /\ grid k (max_extent e) (Z.max (b - a) (d - c)).
Proof.
  intros Hk Hkk G L1 L2 B A. pose proof (grid_box_null _ _ _ _ _ _ G) as N.
  destruct G as (G1 & G2 & G3 & G4).
  assert (grid k (get_width e) (b - a)) as W.
  { unfold get_width. rewrite N. replace (b <? a) with false by lia. apply grid_sub; auto; lia. }
  assert (grid k (get_height e) (d - c)) as H.
  { unfold get_height. rewrite N. replace (b <? a) with false by lia. apply grid_sub; auto; lia. }
  split; [assumption|split; [assumption|]].
  split. { unfold env_get_area. apply grid_mul; auto. nia. }
  unfold min_extent, max_extent. rewrite N. replace (b <? a) with false by lia. cbv zeta.
  change fgtb with (fun x y => fltb y x). cbv beta.
  rewrite (grid_ltb k _ _ _ _ W H), (grid_ltb k _ _ _ _ H W).
  split.
  - destruct (Z.ltb_spec (b - a) (d - c)); [rewrite Z.min_l by lia|rewrite Z.min_r by lia]; assumption.
  - destruct (Z.ltb_spec (d - c) (b - a)); [rewrite Z.max_l by lia|rewrite Z.max_r by lia]; assumption.
Qed.

Lemma centre_exact k e a b c d ct :
  -1073 <= k <= 970 -> grid_box k e a b c d -> a <= b ->
  Z.abs a + Z.abs b + Z.abs c + Z.abs d <= 2 ^ 53 -> env_centre e = Some ct ->
  grid (k - 1) (cx ct) (a + b) /\ grid (k - 1) (cy ct) (c + d).
Proof.
  intros Hk G L1 B. pose proof (grid_box_null _ _ _ _ _ _ G) as N.
  destruct G as (G1 & G2 & G3 & G4). unfold env_centre. rewrite N. replace (b <? a) with false by lia.
  intros E; inversion E; subst ct; clear E; cbn [cx cy new_xy].
  split; (apply grid_div2; [lia|lia| |exact R_of_f2]); apply grid_add; auto; lia.
Qed.
