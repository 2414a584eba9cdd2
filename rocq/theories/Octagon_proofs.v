(** Proofs about octagonal envelopes. *)
From Coq Require Import ZArith Bool List Lia ZifyBool Reals Lra.
From Flocq Require Import Core IEEE754.BinarySingleNaN.
From Verif Require Import Base F64 F64Facts F64Err Coordinate_model Envelope_model Envelope_spec Envelope_proofs CoordSeq_model Octagon_model Octagon_spec.
Import ListNotations.
Open Scope Z_scope.

Lemma forall2_4 {A B} (P : A -> B -> Prop) a b c d a' b' c' d' :
  Forall2 P [a; b; c; d] [a'; b'; c'; d'] <-> P a a' /\ P b b' /\ P c c' /\ P d d'.
Proof.
  split.
  - intros H. inversion_clear H as [|? ? ? ? H1 H']. inversion_clear H' as [|? ? ? ? H2 H'']. inversion_clear H'' as [|? ? ? ? H3 H'].
    inversion_clear H'. tauto.
  - intros (? & ? & ? & ?). repeat constructor; auto.
Qed.
Lemma forall_4 {A} (P : A -> Prop) a b c d : Forall P [a; b; c; d] <-> P a /\ P b /\ P c /\ P d.
Proof. rewrite !Forall_cons_iff. intuition. Qed.
(** One band. *)
Definition okb (lo hi : f64) : Prop := nn lo /\ nn hi /\ rank lo <= rank hi.
Definition inb (lo hi v : f64) : Prop := nn lo /\ nn hi /\ nn v /\ rank lo <= rank v <= rank hi.
Lemma is_oct_ok o : is_oct o <-> okb (ominx o) (omaxx o) /\ okb (ominy o) (omaxy o) /\ okb (omina o) (omaxa o) /\ okb (ominb o) (omaxb o).
Proof. unfold is_oct, bands, okb. rewrite forall_4. cbn [fst snd]. now rewrite !lef_rank. Qed.
Lemma in_oct_inb o p : in_oct o p <-> inb (ominx o) (omaxx o) (cx p) /\ inb (ominy o) (omaxy o) (cy p) /\
  inb (omina o) (omaxa o) (fadd (cx p) (cy p)) /\ inb (ominb o) (omaxb o) (fsub (cx p) (cy p)).
Proof. unfold in_oct, bands, axes, inb. rewrite forall2_4. cbn [fst snd]. rewrite !lef_rank. intuition. Qed.
Lemma nn_oct_4 p : nn_oct p <-> nn (cx p) /\ nn (cy p) /\ nn (fadd (cx p) (cy p)) /\ nn (fsub (cx p) (cy p)).
Proof. unfold nn_oct, axes. now rewrite forall_4. Qed.
Lemma fin_nn_oct p : fin_xy p -> nn_oct p.
Proof.
  intros (A & B). apply nn_oct_4. repeat split; try (now apply nn_finite).
  - apply nn_fadd_fin; [now apply nn_finite|assumption].
  - apply nn_fsub_fin; [now apply nn_finite|assumption].
Qed.
Lemma is_oct_not_null o : is_oct o -> oct_is_null o = false.
Proof. rewrite is_oct_ok. intros ((A & _) & _). exact A. Qed.
Lemma wf_oct_cases o : wf_oct o -> (oct_is_null o = true) \/ (is_oct o /\ oct_is_null o = false).
Proof. intros [H|H]; [now left|right; split; [exact H|now apply is_oct_not_null]]. Qed.
Lemma in_oct_is_oct o p : in_oct o p -> is_oct o.
Proof. rewrite in_oct_inb, is_oct_ok. unfold inb, okb. intuition lia. Qed.
Lemma valid_wf o : oct_is_valid o = true <-> wf_oct o.
Proof.
  unfold oct_is_valid, wf_oct. destruct (oct_is_null o); [tauto|]. rewrite !andb_true_iff. unfold is_oct, bands, lef. rewrite forall_4. cbn [fst snd].
  intuition discriminate.
Qed.
(** Grown bands. *)
Definition lo2 (v lo : f64) : f64 := if fltb v lo then v else lo.
Definition hi2 (v hi : f64) : f64 := if fgtb v hi then v else hi.
Lemma lo2_rank v lo : nn v -> nn lo -> nn (lo2 v lo) /\ rank (lo2 v lo) = Z.min (rank v) (rank lo).
Proof. intros A B. unfold lo2. rewrite fltb_rank by assumption. destruct (Z.ltb_spec (rank v) (rank lo)); split; auto; lia. Qed.
Lemma hi2_rank v hi : nn v -> nn hi -> nn (hi2 v hi) /\ rank (hi2 v hi) = Z.max (rank v) (rank hi).
Proof. intros A B. unfold hi2. rewrite fgtb_rank by assumption. destruct (Z.ltb_spec (rank hi) (rank v)); split; auto; lia. Qed.
Lemma grow_ok l h l' h' : okb l h -> okb l' h' -> okb (lo2 l' l) (hi2 h' h).
Proof.
  intros (A & B & C) (A' & B' & C'). destruct (lo2_rank l' l A' A) as (P & Q), (hi2_rank h' h B' B) as (P' & Q').
  split; [exact P|]. split; [exact P'|]. lia.
Qed.
(** [a <= b] as bands, [b] the larger. *)
Definition subb (l h l' h' : f64) : Prop := rank l' <= rank l /\ rank h <= rank h'.
Lemma grow_sub l h l' h' L H : okb l h -> okb l' h' -> (subb (lo2 l' l) (hi2 h' h) L H <-> subb l h L H /\ subb l' h' L H).
Proof.
  intros (A & B & C) (A' & B' & C'). destruct (lo2_rank l' l A' A) as (P & Q), (hi2_rank h' h B' B) as (P' & Q').
  unfold subb. rewrite Q, Q'. lia.
Qed.
Lemma okb_refl v : nn v -> okb v v.
Proof. intros. repeat split; auto; lia. Qed.
Definition sub_oct (a b : Oct) : Prop :=
  subb (ominx a) (omaxx a) (ominx b) (omaxx b) /\ subb (ominy a) (omaxy a) (ominy b) (omaxy b) /\
  subb (omina a) (omaxa a) (omina b) (omaxa b) /\ subb (ominb a) (omaxb a) (ominb b) (omaxb b).
(** The octagon of one point. *)
Definition pt_oct (x y : f64) : Oct := mkO x x y y (fadd x y) (fadd x y) (fsub x y) (fsub x y).
Lemma pt_oct_ok p : nn_oct p -> is_oct (pt_oct (cx p) (cy p)).
Proof. rewrite nn_oct_4, is_oct_ok. cbn. intros (? & ? & ? & ?). repeat split; auto; lia. Qed.
Lemma in_oct_sub o p : is_oct o -> nn_oct p -> (in_oct o p <-> sub_oct (pt_oct (cx p) (cy p)) o).
Proof. rewrite is_oct_ok, nn_oct_4, in_oct_inb. unfold okb, inb, sub_oct, subb. cbn. intuition. Qed.
Definition join (o t : Oct) : Oct :=
  mkO (lo2 (ominx t) (ominx o)) (hi2 (omaxx t) (omaxx o)) (lo2 (ominy t) (ominy o)) (hi2 (omaxy t) (omaxy o))
      (lo2 (omina t) (omina o)) (hi2 (omaxa t) (omaxa o)) (lo2 (ominb t) (ominb o)) (hi2 (omaxb t) (omaxb o)).
Lemma join_ok o t : is_oct o -> is_oct t -> is_oct (join o t).
Proof. rewrite !is_oct_ok. intros (? & ? & ? & ?) (? & ? & ? & ?). cbn [join ominx omaxx ominy omaxy omina omaxa ominb omaxb]. split; [|split; [|split]]; apply grow_ok; assumption. Qed.
Lemma join_sub o t r : is_oct o -> is_oct t -> (sub_oct (join o t) r <-> sub_oct o r /\ sub_oct t r).
Proof.
  rewrite !is_oct_ok. intros (? & ? & ? & ?) (? & ? & ? & ?). unfold sub_oct, join. cbn [ominx omaxx ominy omaxy omina omaxa ominb omaxb].
  rewrite !grow_sub by assumption. tauto.
Qed.
Lemma expand_xy_join o x y : oct_expand_xy o x y = if oct_is_null o then pt_oct x y else join o (pt_oct x y).
Proof. reflexivity. Qed.
Lemma oct_eta t : mkO (ominx t) (omaxx t) (ominy t) (omaxy t) (omina t) (omaxa t) (ominb t) (omaxb t) = t.
Proof. now destruct t. Qed.
Lemma expand_oct_join o t : oct_expand_oct o t = if oct_is_null t then o else if oct_is_null o then t else join o t.
Proof. unfold oct_expand_oct. now rewrite oct_eta. Qed.
Lemma sub_refl o : sub_oct o o.
Proof. unfold sub_oct, subb. lia. Qed.
Lemma sub_trans a b c : sub_oct a b -> sub_oct b c -> sub_oct a c.
Proof. unfold sub_oct, subb. lia. Qed.
(** The tests. *)
Lemma contains_sub a b : is_oct a -> is_oct b -> (oct_contains a b = true <-> sub_oct b a).
Proof.
  intros A B. unfold oct_contains. rewrite !is_oct_not_null by assumption. cbn [orb]. apply is_oct_ok in A, B. unfold okb in A, B.
  rewrite !fgeb_rank, !fleb_rank by tauto. unfold sub_oct, subb. rewrite !andb_true_iff, !Z.leb_le. tauto.
Qed.
Lemma intersects_in o p : is_oct o -> nn_oct p -> (oct_intersects o p = true <-> in_oct o p).
Proof.
  intros O P. rewrite in_oct_sub by assumption. apply is_oct_ok in O. apply nn_oct_4 in P. unfold okb in O.
  unfold oct_intersects, compute_a, compute_b. cbv zeta. rewrite !fgtb_rank, !fltb_rank by tauto. unfold sub_oct, subb, pt_oct. cbn [ominx omaxx ominy omaxy omina omaxa ominb omaxb].
  repeat match goal with |- context [if ?a <? ?b then _ else _] => destruct (Z.ltb_spec a b) end; split; intros; try discriminate; try lia; auto.
Qed.
Lemma meets_ranks a b : is_oct a -> is_oct b -> (oct_intersects_oct a b = true <->
  (rank (ominx a) <= rank (omaxx b) /\ rank (ominx b) <= rank (omaxx a)) /\ (rank (ominy a) <= rank (omaxy b) /\ rank (ominy b) <= rank (omaxy a)) /\
  (rank (omina a) <= rank (omaxa b) /\ rank (omina b) <= rank (omaxa a)) /\ (rank (ominb a) <= rank (omaxb b) /\ rank (ominb b) <= rank (omaxb a))).
Proof.
  intros A B. unfold oct_intersects_oct. rewrite !is_oct_not_null by assumption. cbn [orb]. apply is_oct_ok in A, B. unfold okb in A, B.
  rewrite !fgtb_rank, !fltb_rank by tauto.
  repeat match goal with |- context [if ?a <? ?b then _ else _] => destruct (Z.ltb_spec a b) end; split; intros; try discriminate; try lia; auto.
Qed.
(** Folding over points. *)
Definition oct_of_points (pts : list Coordinate) : Oct := fold_left oct_expand_coordinate pts oct_default.
Lemma fold_oct pts o : is_oct o -> Forall nn_oct pts ->
  is_oct (fold_left oct_expand_coordinate pts o) /\
  forall r, is_oct r -> (sub_oct (fold_left oct_expand_coordinate pts o) r <-> sub_oct o r /\ Forall (in_oct r) pts).
Proof.
  revert o. induction pts as [|p pts IH]; intros o O F; cbn [fold_left].
  - split; [exact O|]. intros r R. intuition.
  - inversion_clear F as [|? ? Np F']. unfold oct_expand_coordinate at 2 4. rewrite expand_xy_join, is_oct_not_null by exact O.
    pose proof (pt_oct_ok p Np) as Pp. destruct (IH _ (join_ok _ _ O Pp) F') as (I1 & I2). split; [exact I1|]. intros r R. rewrite I2 by exact R.
    rewrite join_sub by assumption. rewrite Forall_cons_iff, in_oct_sub by assumption. tauto.
Qed.
Lemma of_points_oct pts : Forall nn_oct pts -> pts <> [] -> is_oct (oct_of_points pts) /\
  forall r, is_oct r -> (sub_oct (oct_of_points pts) r <-> Forall (in_oct r) pts).
Proof.
  destruct pts as [|p pts]; [easy|]. intros F _. inversion_clear F as [|? ? Np F']. unfold oct_of_points. cbn [fold_left].
  change (oct_expand_coordinate oct_default p) with (pt_oct (cx p) (cy p)). pose proof (pt_oct_ok p Np) as Pp.
  destruct (fold_oct pts _ Pp F') as (A & B). split; [exact A|]. intros r R. rewrite B by exact R. rewrite Forall_cons_iff, in_oct_sub by assumption. tauto.
Qed.
Lemma expand_seq_fold o s : oct_expand_seq o s = Ok (fold_left oct_expand_coordinate (scoords s) o).
Proof.
  unfold oct_expand_seq, seq_size.
  destruct (forN_ind (fun i r => r = fold_left oct_expand_coordinate (firstn i (scoords s)) o)
    (fun i o => c <- idx (scoords s) i ;; d <- idx (scoords s) i ;; Ok (oct_expand_xy o (cx c) (cy d))) (length (scoords s)) 0 o) as (r & E & P).
  - reflexivity.
  - intros i r Hi ->. destruct (idx_ok (scoords s) i) as (c & Ec & N); [lia|]. rewrite Ec. cbn [bind]. eexists. split; [reflexivity|].
    assert (firstn (S i) (scoords s) = firstn i (scoords s) ++ [c]) as ->; [|now rewrite fold_left_app].
    clear - N. revert i N. induction (scoords s) as [|d l IH]; intros [|i] N; try discriminate; cbn in *; [congruence|]. f_equal. now apply IH.
  - rewrite E, P. cbn [Nat.add]. now rewrite firstn_all.
Qed.
(** Same logic as the plain envelope. *)
Definition box_of (o : Oct) : Envelope := mkE (ominx o) (omaxx o) (ominy o) (omaxy o).
Lemma box_fold pts o e : is_oct o -> Forall nn_oct pts -> box_of o = e ->
  box_of (fold_left oct_expand_coordinate pts o) = fold_left expand_to_include_coordinate pts e.
Proof.
  revert o e. induction pts as [|p pts IH]; intros o e O F E; cbn [fold_left]; [exact E|]. inversion_clear F as [|? ? Np F'].
  apply IH; [|exact F'|].
  - unfold oct_expand_coordinate. rewrite expand_xy_join, is_oct_not_null by exact O. apply join_ok; [exact O|now apply pt_oct_ok].
  - subst e. assert (is_null (box_of o) = false) as N.
    { apply is_oct_ok in O. destruct O as ((A & B & C) & _). unfold is_null, box_of. cbn. rewrite fltb_rank by assumption. lia. }
    unfold oct_expand_coordinate, oct_expand_xy. rewrite is_oct_not_null by exact O.
    change (expand_to_include_coordinate (box_of o) p) with (expand_to_include_xy (box_of o) (cx p) (cy p)).
    unfold expand_to_include_xy. rewrite N. reflexivity.
Qed.
(** Expanding by a distance. *)
Lemma fsub_nonneg_le x t : nn x -> fis_finite t = true -> 0 <= rank t -> rank (fsub x t) <= rank x.
Proof.
  intros N F L. rewrite fsub_fadd. apply fadd_nonpos_le; [exact N|now rewrite fneg_fin|]. rewrite rank_fneg; lia.
Qed.
Lemma fsub_nonpos_ge x t : nn x -> fis_finite t = true -> rank t <= 0 -> rank x <= rank (fsub x t).
Proof.
  intros N F L. rewrite fsub_fadd. apply fadd_nonneg_ge; [exact N|now rewrite fneg_fin|]. rewrite rank_fneg; lia.
Qed.
Lemma widen_ok l h d : okb l h -> fis_finite d = true -> nn (fsub l d) /\ nn (fadd h d) /\
  (0 <= rank d -> subb l h (fsub l d) (fadd h d)) /\ (rank d <= 0 -> subb (fsub l d) (fadd h d) l h).
Proof.
  intros (A & B & C) F. pose proof (nn_fsub_fin l d A F). pose proof (nn_fadd_fin h d B F). repeat split; auto.
  - now apply fsub_nonneg_le.
  - now apply fadd_nonneg_ge.
  - now apply fsub_nonpos_ge.
  - now apply fadd_nonpos_le.
Qed.
