(** C53: the order of the segments and of their ends does not matter to the line
    intersector. *)
From Coq Require Import ZArith Bool Reals Lia Lra.
From Flocq Require Import Core IEEE754.BinarySingleNaN.
From Verif Require Import Base F64 F64Facts Num NumLink F64Err DD_spec Envelope_model Coordinate_model Orientation_spec Orientation_proofs PointLocation_proofs Distance_float Distance_props Intersection_proofs Intersection_props LineIntersector_proofs Orientation_model Orientation_props Distance_model Distance_spec Distance_proofs
  PrecisionModel_model Intersection_model Intersection_spec LineIntersector_model LineIntersector_spec LineIntersector_props.
Local Open Scope R_scope.

(** The same two segments, written down in another way. *)
Inductive rearranged (p1 p2 q1 q2 : Coordinate) : Coordinate -> Coordinate -> Coordinate -> Coordinate -> Prop :=
| re_same : rearranged p1 p2 q1 q2 p1 p2 q1 q2
| re_turn_first a b c d : rearranged p1 p2 q1 q2 a b c d -> rearranged p1 p2 q1 q2 b a c d
| re_exchange a b c d : rearranged p1 p2 q1 q2 a b c d -> rearranged p1 p2 q1 q2 c d a b.
(** The points that the intersector reports: none, one, or all between two. *)
Definition reported (s : LI) (x : pR) : Prop :=
  (li_result s = 1%Z /\ x = rpt (int_0 s)) \/ (li_result s = 2%Z /\ on_segment (rpt (int_0 s)) (rpt (int_1 s)) x).

Lemma on_segment_turn a b x : on_segment a b x -> on_segment b a x.
Proof.
  intros (t & T & ->). exists (1 - t). split; [lra|]. unfold along. f_equal; ring.
Qed.
Lemma side_turn a b c : side b a c = - side a b c.
Proof. unfold side. ring. Qed.
Lemma rearranged_shared p1 p2 q1 q2 a b c d : rearranged p1 p2 q1 q2 a b c d ->
  (forall x, shared (rpt p1) (rpt p2) (rpt q1) (rpt q2) x <-> shared (rpt a) (rpt b) (rpt c) (rpt d) x) /\
  (strictly_cross (rpt p1) (rpt p2) (rpt q1) (rpt q2) <-> strictly_cross (rpt a) (rpt b) (rpt c) (rpt d)) /\
  (forall P : Coordinate -> Prop, P p1 -> P p2 -> P q1 -> P q2 -> P a /\ P b /\ P c /\ P d).
Proof.
  induction 1 as [|a b c d _ (S & C & P)|a b c d _ (S & C & P)].
  - split; [tauto|]. split; [tauto|]. auto.
  - split; [|split].
    + intros x. rewrite S. unfold shared. split; intros (A & B); (split; [now apply on_segment_turn|exact B]).
    + rewrite C. unfold strictly_cross, opposite. rewrite !(side_turn (rpt a) (rpt b)). split; intros (A & B); (split; [lra|lra]).
    + intros Q H1 H2 H3 H4. destruct (P Q H1 H2 H3 H4) as (A & B & D & E). auto.
  - split; [|split].
    + intros x. rewrite S. unfold shared. tauto.
    + rewrite C. unfold strictly_cross. tauto.
    + intros Q H1 H2 H3 H4. destruct (P Q H1 H2 H3 H4) as (A & B & D & E). auto.
Qed.
(** Whatever the two intersectors held before: the same answer to whether there
    is an intersection and whether it is proper, and the same reported points
    when it is not. *)
Theorem C53_symmetric : forall hypot e s t p1 p2 q1 q2 a b c d, (-100 <= e <= 70)%Z ->
  small_pt e p1 -> small_pt e p2 -> small_pt e q1 -> small_pt e q2 -> rearranged p1 p2 q1 q2 a b c d ->
  let s' := compute_intersection_4 hypot s p1 p2 q1 q2 in
  let t' := compute_intersection_4 hypot t a b c d in
  has_intersection s' = has_intersection t' /\ li_proper s' = li_proper t' /\
  (li_proper s' = false -> forall x, reported s' x <-> reported t' x).
Proof.
  intros hypot e s t p1 p2 q1 q2 a b c d He S1 S2 S3 S4 R. cbv zeta.
  destruct (rearranged_shared _ _ _ _ _ _ _ _ R) as (SH & CR & ALL). destruct (ALL (small_pt e) S1 S2 S3 S4) as (T1 & T2 & T3 & T4).
  pose proof (C53_has_intersection hypot e s p1 p2 q1 q2 He S1 S2 S3 S4) as H1.
  pose proof (C53_has_intersection hypot e t a b c d He T1 T2 T3 T4) as H2.
  destruct (C53_classification hypot e s p1 p2 q1 q2 He S1 S2 S3 S4) as (K1 & P1).
  destruct (C53_classification hypot e t a b c d He T1 T2 T3 T4) as (K2 & P2).
  revert H1 H2 K1 P1 K2 P2. generalize (compute_intersection_4 hypot s p1 p2 q1 q2) as s'. generalize (compute_intersection_4 hypot t a b c d) as t'.
  intros t' s' H1 H2 K1 P1 K2 P2.
  assert (HI : has_intersection s' = has_intersection t').
  { apply eq_true_iff_eq. rewrite H1, H2. split; intros (x & X); exists x; now apply SH. }
  assert (PR : li_proper s' = li_proper t').
  { apply eq_true_iff_eq. rewrite P1, P2. exact CR. }
  assert (REP : forall (u : LI) (S : pR -> Prop) (end_ : Coordinate -> Prop) (F : pR -> Prop), li_proper u = false ->
    ((li_result u = 0%Z /\ forall x, ~ S x) \/
     (li_result u = 1%Z /\ exists x, (forall y, S y <-> y = x) /\ (li_proper u = false -> rpt (int_0 u) = x /\ end_ (int_0 u)) /\ F x) \/
     (li_result u = 2%Z /\ forall x, S x <-> on_segment (rpt (int_0 u)) (rpt (int_1 u)) x)) -> forall x, reported u x <-> S x).
  { intros u S en F PF K x. unfold reported. destruct K as [(E & K)|[(E & y & K & V & _)|(E & K)]]; rewrite E.
    - split; [intros [(W & _)|(W & _)]; discriminate W|intros W; now apply K in W].
    - destruct (V PF) as (<- & _). rewrite K. split; [intros [(_ & W)|(W & _)]; [exact W|discriminate W]|auto].
    - rewrite K. split; [intros [(W & _)|(_ & W)]; [discriminate W|exact W]|auto]. }
  split; [exact HI|]. split; [exact PR|].
  intros PF x. rewrite (REP s' _ _ _ PF K1). rewrite PR in PF. rewrite (REP t' _ _ _ PF K2). apply SH.
Qed.
(** Two segments that overlap, written in two ways. *)
Example C53_symmetric_example : let s := compute_intersection_4 fadd li_default (ipt 0 0) (ipt 4 4) (ipt 6 6) (ipt 2 2) in
  let t := compute_intersection_4 fadd li_default (ipt 2 2) (ipt 6 6) (ipt 0 0) (ipt 4 4) in
  rearranged (ipt 0 0) (ipt 4 4) (ipt 6 6) (ipt 2 2) (ipt 2 2) (ipt 6 6) (ipt 0 0) (ipt 4 4) /\ small_pt 0 (ipt 6 6) /\
  li_result s = 2%Z /\ li_result t = 2%Z /\ li_proper s = false.
Proof.
  cbv zeta. split; [apply re_turn_first, re_exchange, re_same|]. split; [apply ipt_small; lia|]. repeat split; vm_compute; reflexivity.
Qed.
