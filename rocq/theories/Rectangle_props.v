(** C68, continued: when a polygon counts as a rectangle (polygon.rs 176-214). *)
From Coq Require Import ZArith Bool List Lia.
From Verif Require Import Base F64 F64Facts Coordinate_model Coordinate_spec Coordinate_proofs Envelope_model Envelope_spec Envelope_proofs
  CoordArrays_model CoordArrays_spec CoordArrays_proofs CoordSeq_model CoordSeq_spec CoordSeq_proofs CoordSeq_props
  PrecisionModel_model Measure_spec Measure_props Geom_model Geom_proofs Line_props Polygon_proofs Polygon_props.
Import ListNotations.
Open Scope nat_scope.

(** At a corner of the box. *)
Definition at_corner (e : Envelope) (c : Coordinate) : Prop :=
  (eqf (cx c) (minx e) \/ eqf (cx c) (maxx e)) /\ (eqf (cy c) (miny e) \/ eqf (cy c) (maxy e)).
(** A move along exactly one axis. *)
Definition one_axis (a b : Coordinate) : Prop := (eqf (cx a) (cx b) /\ ~ eqf (cy a) (cy b)) \/ (~ eqf (cx a) (cx b) /\ eqf (cy a) (cy b)).
Definition p2 (x y : f64) : Coordinate := mkC x y fnan fnan.

Definition cornerb (e : Envelope) (c : Coordinate) : bool :=
  (feqb (cx c) (minx e) || feqb (cx c) (maxx e)) && (feqb (cy c) (miny e) || feqb (cy c) (maxy e)).
Definition stepb (a b : Coordinate) : bool := negb (Bool.eqb (fneb (cx b) (cx a)) (fneb (cy b) (cy a))).
Lemma corner_loop_eq s e p0 q1 q2 q3 q4 : scoords s = [p0; q1; q2; q3; q4] ->
  corner_loop s e = Ok (if forallb (cornerb e) [p0; q1; q2; q3; q4] then inl tt else inr false).
Proof.
  intros E. unfold corner_loop. cbn [forR forallb]. unfold seq_coord, idx. rewrite E. cbn [nth_error bind]. unfold cornerb.
  destruct (feqb (cx p0) (minx e) || feqb (cx p0) (maxx e)); [|reflexivity]. cbn [negb]. destruct (feqb (cy p0) (miny e) || feqb (cy p0) (maxy e)); [|reflexivity]. cbn [negb bind andb].
  destruct (feqb (cx q1) (minx e) || feqb (cx q1) (maxx e)); [|reflexivity]. cbn [negb]. destruct (feqb (cy q1) (miny e) || feqb (cy q1) (maxy e)); [|reflexivity]. cbn [negb bind andb].
  destruct (feqb (cx q2) (minx e) || feqb (cx q2) (maxx e)); [|reflexivity]. cbn [negb]. destruct (feqb (cy q2) (miny e) || feqb (cy q2) (maxy e)); [|reflexivity]. cbn [negb bind andb].
  destruct (feqb (cx q3) (minx e) || feqb (cx q3) (maxx e)); [|reflexivity]. cbn [negb]. destruct (feqb (cy q3) (miny e) || feqb (cy q3) (maxy e)); [|reflexivity]. cbn [negb bind andb].
  destruct (feqb (cx q4) (minx e) || feqb (cx q4) (maxx e)); [|reflexivity]. cbn [negb]. destruct (feqb (cy q4) (miny e) || feqb (cy q4) (maxy e)); reflexivity.
Qed.
Lemma order_loop_eq s p0 q1 q2 q3 q4 : scoords s = [p0; q1; q2; q3; q4] ->
  (r <- order_loop s (cx p0, cy p0) ;; match r with inr b => Ok b | inl _ => Ok true end) = Ok (stepb p0 q1 && (stepb q1 q2 && (stepb q2 q3 && stepb q3 q4))).
Proof.
  intros E. unfold order_loop. cbn [forR]. unfold seq_coord, idx. rewrite E. cbn [nth_error bind]. unfold stepb.
  destruct (Bool.eqb (fneb (cx q1) (cx p0)) (fneb (cy q1) (cy p0))); [reflexivity|]. cbn [negb bind andb].
  destruct (Bool.eqb (fneb (cx q2) (cx q1)) (fneb (cy q2) (cy q1))); [reflexivity|]. cbn [negb bind andb].
  destruct (Bool.eqb (fneb (cx q3) (cx q2)) (fneb (cy q3) (cy q2))); [reflexivity|]. cbn [negb bind andb].
  destruct (Bool.eqb (fneb (cx q4) (cx q3)) (fneb (cy q4) (cy q3))); reflexivity.
Qed.
Lemma cornerb_spec e c : cornerb e c = true <-> at_corner e c.
Proof. unfold cornerb, at_corner, eqf. now rewrite andb_true_iff, !orb_true_iff. Qed.
Lemma feqb_comm a b : feqb a b = feqb b a.
Proof.
  destruct (feqb a b) eqn:A, (feqb b a) eqn:B; auto.
  - apply eqf_rank in A. assert (eqf b a) as C by (apply eqf_rank; intuition). unfold eqf in C. congruence.
  - apply eqf_rank in B. assert (eqf a b) as C by (apply eqf_rank; intuition). unfold eqf in C. congruence.
Qed.
Lemma stepb_spec a b : stepb a b = true <-> one_axis a b.
Proof.
  unfold stepb, one_axis, eqf. change (fneb (cx b) (cx a)) with (negb (feqb (cx b) (cx a))). change (fneb (cy b) (cy a)) with (negb (feqb (cy b) (cy a))).
  rewrite (feqb_comm (cx b)), (feqb_comm (cy b)). destruct (feqb (cx a) (cx b)), (feqb (cy a) (cy b)); cbn; intuition congruence.
Qed.
Lemma copy_envelope p c : pg_copy p = Ok c -> snd (pg_get_envelope c) = envelope_of (spts p).
Proof.
  intros E. unfold pg_copy in E. rewrite rg_copy_id in E. cbn [bind] in E.
  rewrite (collect rg_copy (fun h => mkRg (rg_seq h) None None)) in E by (intros a _; apply rg_copy_id). cbn [bind] in E.
  unfold pg_new, pg_new_pm in E. rewrite rg_copy_id in E. cbn [bind] in E. injection E as <-. unfold pg_get_envelope. cbn [pg_env pg_shell rg_seq]. unfold rg_get_envelope. cbn [rg_env snd].
  rewrite !env_copy. apply rg_compute_envelope_eq.
Qed.
(** What is tested: no holes, five points, all of them corners of the envelope,
    each one a move along one axis away from the one before. *)
Theorem C68_is_rectangle : forall p, exists b, pg_is_rectangle p = Ok b /\
  (b = true <-> pg_holes p = [] /\ exists a b c d f, spts p = [a; b; c; d; f] /\
     Forall (at_corner (envelope_of (spts p))) [a; b; c; d; f] /\ one_axis a b /\ one_axis b c /\ one_axis c d /\ one_axis d f).
Proof.
  intros p. unfold pg_is_rectangle, pg_num_holes. destruct (pg_holes p) as [|h hs] eqn:Hh; cbn [length Nat.eqb negb].
  2:{ exists false. split; [reflexivity|]. split; [discriminate|]. intros (X & _). discriminate. }
  unfold rg_num_points, seq_size. change (scoords (rg_seq (pg_shell p))) with (spts p). destruct (Nat.eqb_spec (length (spts p)) 5) as [L|L]; cbn [negb].
  2:{ exists false. split; [reflexivity|]. split; [discriminate|]. intros (_ & a & b & c & d & f & E & _). rewrite E in L. easy. }
  rewrite rg_sequence_id. cbn [bind]. destruct (C68_copy p) as (c & C & _). rewrite C. cbn [bind]. rewrite (copy_envelope p c C).
  destruct (spts p) as [|q0 [|q1 [|q2 [|q3 [|q4 [|]]]]]] eqn:E; try discriminate L. rewrite (corner_loop_eq _ _ q0 q1 q2 q3 q4) by exact E. cbn [bind].
  destruct (forallb (cornerb (envelope_of [q0; q1; q2; q3; q4])) [q0; q1; q2; q3; q4]) eqn:K.
  - unfold seq_coord at 1, idx. change (scoords (rg_seq (pg_shell p))) with (spts p). rewrite E. cbn [nth_error bind]. rewrite (order_loop_eq _ q0 q1 q2 q3 q4) by exact E.
    eexists. split; [reflexivity|]. rewrite !andb_true_iff, !stepb_spec. split.
    + intros (A & B & C' & D). split; [reflexivity|]. exists q0, q1, q2, q3, q4. split; [reflexivity|]. split; [|auto].
      apply Forall_forall. intros x X. apply cornerb_spec. exact (proj1 (forallb_forall _ _) K x X).
    + intros (_ & a & b & c' & d & f & Q & _ & R). injection Q as <- <- <- <- <-. exact R.
  - exists false. split; [reflexivity|]. split; [discriminate|]. intros (_ & a & b & c' & d & f & Q & F & _). injection Q as <- <- <- <- <-.
    assert (forallb (cornerb (envelope_of [q0; q1; q2; q3; q4])) [q0; q1; q2; q3; q4] = true) as K'.
    { apply forallb_forall. intros x X. apply cornerb_spec. exact (proj1 (Forall_forall _ _) F x X). }
    congruence.
Qed.
(** A rectangle with sides along the axes, in one of the two directions. *)
Definition axis_rectangle (l : list Coordinate) : Prop :=
  exists x1 x2 y1 y2, ~ eqf x1 x2 /\ ~ eqf y1 y2 /\
    (same_pts l [p2 x1 y1; p2 x2 y1; p2 x2 y2; p2 x1 y2; p2 x1 y1] \/ same_pts l [p2 x1 y1; p2 x1 y2; p2 x2 y2; p2 x2 y1; p2 x1 y1]).
Lemma eqf_sym a b : eqf a b -> eqf b a.
Proof. unfold eqf. now rewrite feqb_comm. Qed.
Lemma eqf_trans a b c : eqf a b -> eqf b c -> eqf a c.
Proof. rewrite !eqf_rank. intuition congruence. Qed.
(** Every such rectangle is accepted, wherever it starts and whichever way it goes. *)
Theorem C68_rectangle_accepted : forall p, pg_holes p = [] -> axis_rectangle (spts p) -> pg_is_rectangle p = Ok true.
Proof.
  intros p H (x1 & x2 & y1 & y2 & Nx & Ny & S). destruct (C68_is_rectangle p) as (b & E & B). rewrite E. f_equal. apply B. split; [exact H|]. clear E B b.
  assert (forall l m, same_pts l m -> Forall nn_xy l) as NN.
  { clear. intros l m F. induction F as [|a b l m P F IH]; constructor; auto. apply pt_eq_rank in P. tauto. }
  assert (Forall nn_xy (spts p)) as F by (destruct S as [S|S]; eapply NN, S).
  assert (exists a b c d f, spts p = [a; b; c; d; f]) as (q0 & q1 & q2 & q3 & q4 & Q).
  { destruct S as [S|S]; apply same_pts_length in S; destruct (spts p) as [|q0 [|q1 [|q2 [|q3 [|q4 [|]]]]]]; try discriminate; eauto 6. }
  exists q0, q1, q2, q3, q4. split; [exact Q|]. set (e := envelope_of (spts p)).
  pose proof (envelope_of_box (spts p) F ltac:(rewrite Q; discriminate)) as BX. fold e in BX.
  pose proof (fun c => envelope_of_covers (spts p) c F) as CV. fold e in CV.
  assert (nn x1 /\ nn x2 /\ nn y1 /\ nn y2) as (N1 & N2 & N3 & N4).
  { rewrite Q in S. destruct S as [S|S]; inversion S as [|? ? ? ? P0 S1]; subst; inversion S1 as [|? ? ? ? P1 S2]; subst; inversion S2 as [|? ? ? ? P2 S3]; subst; apply pt_eq_rank in P0, P2; unfold nn_xy, p2 in *; cbn in *; tauto. }
  (* the box of the four numbers contains the envelope *)
  set (m x y := if (rank x <=? rank y)%Z then x else y). set (M x y := if (rank x <=? rank y)%Z then y else x).
  set (b := mkE (m x1 x2) (M x1 x2) (m y1 y2) (M y1 y2)).
  assert (forall x y, lef x y <-> nn x /\ nn y /\ (rank x <= rank y)%Z) as LR.
  { intros x y. unfold lef. split; [intros K; destruct (fleb_nn _ _ K); rewrite fleb_rank in K by assumption; repeat split; auto; lia|intros (A & B & C); rewrite fleb_rank by assumption; lia]. }
  assert (forall x y, nn x -> nn y -> nn (m x y) /\ nn (M x y) /\ rank (m x y) = Z.min (rank x) (rank y) /\ rank (M x y) = Z.max (rank x) (rank y)) as MM.
  { intros x y X Y. unfold m, M. destruct (Z.leb_spec (rank x) (rank y)); repeat split; auto; lia. }
  destruct (MM x1 x2 N1 N2) as (Na & Nb & Ra & Rb). destruct (MM y1 y2 N3 N4) as (Nc & Nd & Rc & Rd).
  assert (wf_env b) as Wb by (right; split; apply LR; cbn; repeat split; auto; lia).
  assert (subset e b) as SB.
  { apply envelope_of_least; [exact F|exact Wb|]. rewrite Q in S |- *. apply Forall_forall. intros c I.
    assert (nn_xy c /\ (rank (cx c) = rank x1 \/ rank (cx c) = rank x2) /\ (rank (cy c) = rank y1 \/ rank (cy c) = rank y2)) as ((Cx & Cy) & Vx & Vy).
    { destruct S as [S|S]; (inversion S as [|? ? ? ? P0 S1]; subst; inversion S1 as [|? ? ? ? P1 S2]; subst; inversion S2 as [|? ? ? ? P2 S3]; subst; inversion S3 as [|? ? ? ? P3 S4]; subst; inversion S4 as [|? ? ? ? P4 S5]; subst;
      destruct I as [<-|[<-|[<-|[<-|[<-|[]]]]]]; apply pt_eq_rank in P0, P1, P2, P3, P4; unfold p2 in *; cbn [cx cy] in *; intuition). }
    repeat split; apply LR; cbn [minx maxx miny maxy b]; repeat split; auto; lia. }
  destruct BX as (Bx & By). pose proof (proj1 (LR _ _) Bx) as (Xa & Xb & Xc). pose proof (proj1 (LR _ _) By) as (Ya & Yb & Yc).
  assert (in_box b (minx e) (miny e)) as (L1 & _ & L3 & _) by (apply SB; repeat split; apply LR; auto; repeat split; auto; lia).
  assert (in_box b (maxx e) (maxy e)) as (_ & L2 & _ & L4) by (apply SB; repeat split; apply LR; auto; repeat split; auto; lia).
  cbn [minx maxx miny maxy b] in L1, L2, L3, L4. apply LR in L1, L2, L3, L4. rewrite Ra, Rb, Rc, Rd in *.
  rewrite !eqf_rank in Nx, Ny. assert (rank x1 <> rank x2) as Nx' by tauto. assert (rank y1 <> rank y2) as Ny' by tauto.
  pose proof (CV q0 ltac:(rewrite Q; cbn; auto)) as (A1 & A2 & A3 & A4). pose proof (CV q2 ltac:(rewrite Q; cbn; auto)) as (B1 & B2 & B3 & B4).
  apply LR in A1, A2, A3, A4, B1, B2, B3, B4. rewrite Q in S. unfold at_corner, one_axis. rewrite Q in F.
  destruct S as [S|S]; (inversion S as [|? ? ? ? P0 S1]; subst; inversion S1 as [|? ? ? ? P1 S2]; subst; inversion S2 as [|? ? ? ? P2 S3]; subst; inversion S3 as [|? ? ? ? P3 S4]; subst; inversion S4 as [|? ? ? ? P4 S5]; subst;
    apply pt_eq_rank in P0, P1, P2, P3, P4; unfold p2, nn_xy in *; cbn [cx cy] in *;
    destruct P0 as ((U0 & V0) & _ & X0 & Y0); destruct P1 as ((U1 & V1) & _ & X1 & Y1); destruct P2 as ((U2 & V2) & _ & X2 & Y2); destruct P3 as ((U3 & V3) & _ & X3 & Y3); destruct P4 as ((U4 & V4) & _ & X4 & Y4);
    assert (rank (minx e) = Z.min (rank x1) (rank x2)) as E1 by lia; assert (rank (maxx e) = Z.max (rank x1) (rank x2)) as E2 by lia;
    assert (rank (miny e) = Z.min (rank y1) (rank y2)) as E3 by lia; assert (rank (maxy e) = Z.max (rank y1) (rank y2)) as E4 by lia;
    clear - U0 V0 X0 Y0 U1 V1 X1 Y1 U2 V2 X2 Y2 U3 V3 X3 Y3 U4 V4 X4 Y4 E1 E2 E3 E4 Xa Xb Ya Yb Nx' Ny';
    assert (forall x y, nn x -> nn y -> (eqf x y <-> rank x = rank y)) as ER by (intros x y A B; rewrite eqf_rank; tauto);
    split; [repeat (apply Forall_cons; [rewrite !ER by assumption; lia|]); constructor|]; rewrite !ER by assumption; lia).
Qed.
Lemma corner_ranks e c : at_corner e c -> nn (cx c) /\ nn (cy c) /\
  (rank (cx c) = rank (minx e) \/ rank (cx c) = rank (maxx e)) /\ (rank (cy c) = rank (miny e) \/ rank (cy c) = rank (maxy e)).
Proof. unfold at_corner. rewrite !eqf_rank. tauto. Qed.
Lemma pt_eq_ranks a b : nn_xy a -> nn_xy b -> (pt_eq a b <-> rank (cx a) = rank (cx b) /\ rank (cy a) = rank (cy b)).
Proof. intros A B. rewrite pt_eq_rank. tauto. Qed.
Lemma two_values (m M a b c : Z) : a = m \/ a = M -> b = m \/ b = M -> c = m \/ c = M -> a <> b -> b <> c -> a = c.
Proof. lia. Qed.
Lemma rect_z (m M n N xa ya xb yb xc yc xd yd : Z) :
  (xa = m \/ xa = M) /\ (ya = n \/ ya = N) -> (xb = m \/ xb = M) /\ (yb = n \/ yb = N) -> (xc = m \/ xc = M) /\ (yc = n \/ yc = N) -> (xd = m \/ xd = M) /\ (yd = n \/ yd = N) ->
  (xa = xb /\ ya <> yb) \/ (xa <> xb /\ ya = yb) -> (xb = xc /\ yb <> yc) \/ (xb <> xc /\ yb = yc) -> (xc = xd /\ yc <> yd) \/ (xc <> xd /\ yc = yd) ->
  ~ (xa = xc /\ ya = yc) -> ~ (xb = xd /\ yb = yd) ->
  xa <> xc /\ ya <> yc /\ ((xb = xa /\ yb = yc /\ xd = xc /\ yd = ya) \/ (xb = xc /\ yb = ya /\ xd = xa /\ yd = yc)).
Proof.
  intros (Xa & Ya) (Xb & Yb) (Xc & Yc) (Xd & Yd) S1 S2 S3 D1 D2.
  pose proof (two_values m M xa xb xc Xa Xb Xc) as T1. pose proof (two_values n N ya yb yc Ya Yb Yc) as T2.
  pose proof (two_values m M xb xc xd Xb Xc Xd) as T3. pose proof (two_values n N yb yc yd Yb Yc Yd) as T4.
  clear - S1 S2 S3 D1 D2 T1 T2 T3 T4 Xa Xc Xd Ya Yb Yc Yd Xb.
  destruct S1 as [(E1 & E1')|(E1 & E1')], S2 as [(E2 & E2')|(E2 & E2')].
  - exfalso. apply D1. split; [congruence|auto].
  - destruct S3 as [(E3 & E3')|(E3 & E3')]; [|exfalso; apply D2; split; [auto|congruence]]. subst xa xd yc. split; [auto|]. split; [auto|]. left. repeat split; auto.
    clear - Ya Yb Yd E1' E3'. lia.
  - destruct S3 as [(E3 & E3')|(E3 & E3')]; [exfalso; apply D2; split; [congruence|auto]|]. subst xc ya yd. split; [auto|]. split; [auto|]. right. repeat split; auto.
    clear - Xa Xb Xd E1 E3. lia.
  - exfalso. apply D1. split; [auto|congruence].
Qed.
(** A closed ring that is accepted and in which neither diagonal is degenerate
    is such a rectangle. *)
Theorem C68_rectangle_meaning : forall p a b c d f, pg_is_rectangle p = Ok true -> spts p = [a; b; c; d; f] ->
  pt_eq a f -> ~ pt_eq a c -> ~ pt_eq b d -> axis_rectangle (spts p).
Proof.
  intros p a b c d f E Q Cl D1 D2. destruct (C68_is_rectangle p) as (r & E' & B). assert (r = true) as Er by congruence. apply B in Er. destruct Er as (_ & a' & b' & c' & d' & f' & Q' & F & S1 & S2 & S3 & S4).
  rewrite Q in Q'. injection Q' as <- <- <- <- <-. set (e := envelope_of (spts p)) in *. clearbody e.
  inversion F as [|? ? Fa F1]; subst. inversion F1 as [|? ? Fb F2]; subst. inversion F2 as [|? ? Fc F3]; subst. inversion F3 as [|? ? Fd F4]; subst. inversion F4 as [|? ? Ff _]; subst. clear F F1 F2 F3 F4 E E' B.
  destruct (corner_ranks _ _ Fa) as (A1 & A2 & Va). destruct (corner_ranks _ _ Fb) as (B1 & B2 & Vb). destruct (corner_ranks _ _ Fc) as (C1 & C2 & Vc).
  destruct (corner_ranks _ _ Fd) as (E1 & E2 & Vd). destruct (corner_ranks _ _ Ff) as (G1 & G2 & _). clear Fa Fb Fc Fd Ff.
  rewrite pt_eq_ranks in Cl, D1, D2 by (split; assumption).
  assert (forall x y, nn x -> nn y -> (eqf x y <-> rank x = rank y)) as ER by (clear; intros x y A B; rewrite eqf_rank; tauto).
  unfold one_axis in *. rewrite !ER in S1, S2, S3, S4 by assumption.
  rewrite Q. clear Q. exists (cx a), (cx c), (cy a), (cy c). rewrite !ER by assumption.
  destruct (rect_z (rank (minx e)) (rank (maxx e)) (rank (miny e)) (rank (maxy e)) _ _ _ _ _ _ _ _ Va Vb Vc Vd S1 S2 S3 D1 D2) as (Nx & Ny & K).
  destruct Cl as (Cx & Cy). split; [exact Nx|]. split; [exact Ny|]. destruct K as [(K1 & K2 & K3 & K4)|(K1 & K2 & K3 & K4)].
  - right. repeat constructor; apply ER; cbn; auto.
  - left. repeat constructor; apply ER; cbn; auto.
Qed.
(** Without those conditions it need not be one: a line walked back and forth,
    and a ring that does not close, both count as rectangles. *)
Theorem C68_rectangle_refuted : ~ (forall p, pg_is_rectangle p = Ok true -> axis_rectangle (spts p)).
Proof.
  intros H. specialize (H (mkPoly (a_ring [xy 0 0; xy 1 0; xy 1 1; xy 1 0; xy 0 0]) [] None None)). assert (pg_is_rectangle (mkPoly (a_ring [xy 0 0; xy 1 0; xy 1 1; xy 1 0; xy 0 0]) [] None None) = Ok true) as R by (vm_compute; reflexivity).
  specialize (H R). destruct H as (x1 & x2 & y1 & y2 & Nx & Ny & S). unfold spts, rpts, a_ring in S. cbn [pg_shell rg_seq scoords seq_of] in S.
  destruct S as [S|S]; inversion S as [|? ? ? ? P0 S1]; subst; inversion S1 as [|? ? ? ? P1 S2]; subst; inversion S2 as [|? ? ? ? P2 S3]; subst; inversion S3 as [|? ? ? ? P3 S4]; subst.
  - destruct P1 as (X1 & _). destruct P3 as (X3 & _). cbn [cx cy p2 xy] in X1, X3. apply Nx, eqf_trans with (fofZ 1); [now apply eqf_sym|exact X1].
  - destruct P1 as (_ & Y1). destruct P3 as (_ & Y3). cbn [cx cy p2 xy] in Y1, Y3. apply Ny, eqf_trans with (fofZ 0); [now apply eqf_sym|exact Y1].
Qed.
Theorem C68_open_rectangle_refuted : ~ (forall p, pg_is_rectangle p = Ok true -> closed (spts p)).
Proof.
  intros H. specialize (H (mkPoly (a_ring [xy 0 0; xy 1 0; xy 1 1; xy 0 1; xy 1 1]) [] None None)). assert (pg_is_rectangle (mkPoly (a_ring [xy 0 0; xy 1 0; xy 1 1; xy 0 1; xy 1 1]) [] None None) = Ok true) as R by (vm_compute; reflexivity).
  specialize (H R). unfold spts, rpts, a_ring in H. cbn [pg_shell rg_seq scoords seq_of] in H. destruct H as (a & b & A & B & P). cbn in A, B. injection A as <-. injection B as <-. apply equals_2d_eq in P. clear R. assert (equals_2d (xy 0 0) (xy 1 1) = false) as K by (vm_compute; reflexivity). exact (eq_true_false_abs _ P K).
Qed.
Example C68_example : exact_ring 0 8 [(0,0);(8,0);(8,8);(0,8);(0,0)]%Z (spts with_hole) /\ Forall2 (exact_ring 0 8) [[(2,2);(2,4);(4,4);(4,2);(2,2)]%Z] (hpts with_hole) /\
  poly_made with_hole /\ Forall nn_xy (spts with_hole) /\ axis_rectangle unit_square /\ pg_coordinates i32_chk with_hole = Ok (big_square ++ hole_square).
Proof.
  assert (forall l cs, on_grid 0 l cs -> within 8 l -> closed_chain l -> (length cs <= 1000) -> exact_ring 0 8 l cs) as X by (intros l cs A B C D; repeat split; auto; lia).
  assert (forall n, (Z.abs n <= 2 ^ 53)%Z -> grid 0 (fofZ n) n) as G by apply grid_fofZ.
  split. { apply X; [repeat (apply Forall2_cons; [split; apply G; cbn; lia|]); apply Forall2_nil|repeat constructor; cbn; lia|now exists (0,0)%Z, [(8,0);(8,8);(0,8)]%Z|cbn; lia]. }
  split. { constructor; [|constructor]. apply X; [repeat (apply Forall2_cons; [split; apply G; cbn; lia|]); apply Forall2_nil|repeat constructor; cbn; lia|now exists (2,2)%Z, [(2,4);(4,4);(4,2)]%Z|cbn; lia]. }
  split. { apply pmade_new with (a_ring big_square) [a_ring hole_square] None; [eapply made_new, rg_of_seq_id|]. unfold pg_new_pm. now rewrite rg_copy_id. }
  split; [repeat constructor|]. split.
  - exists (fofZ 0), (fofZ 1), (fofZ 0), (fofZ 1). split; [vm_compute; discriminate|]. split; [vm_compute; discriminate|]. left. repeat constructor; vm_compute; reflexivity.
  - apply (C68_coordinates i32_chk with_hole); [now left|discriminate|vm_compute; discriminate].
Qed.
