(** C49, C50, C51: locating points in rings and on lines. *)
From Coq Require Import ZArith Bool List Reals Lia Lra Psatz Permutation.
From Flocq Require Import Core IEEE754.BinarySingleNaN.
From Verif Require Import Base F64 F64Facts Coordinate_model Envelope_model Envelope_spec Envelope_proofs CoordArrays_model
  CoordSeq_model CoordSeq_spec CoordSeq_proofs DD_spec Orientation_model Orientation_spec Orientation_proofs Orientation_props
  Measure_proofs PointLocation_model PointLocation_spec PointLocation_proofs.
Import ListNotations.
Open Scope Z_scope.

(** ** C49 *)
(** The three ring entry points give the same answer. *)
Theorem C49_sequence_vector p s : locate_seq p s = locate_vec p (scoords s).
Proof. exact (locate_seq_vec p s). Qed.
Theorem C49_packed_vector p k s : same_content k s -> locate_packed p k = locate_vec p (scoords s).
Proof. intros H. rewrite <- locate_seq_vec. now apply locate_packed_seq. Qed.
(** Feeding the segments one by one to a counter, without stopping at the
    boundary, gives the same answer again; none of it panics. *)
Theorem C49_incremental p ring : Z.of_nat (length ring) <= i32_max ->
  exists c, count_all (counter_new p) (segs ring) = Ok c /\ locate_vec p ring = Ok (get_location c) /\
    is_in_ring p ring = Ok (is_point_in_polygon c).
Proof.
  intros H. destruct (locate_list_all (segs ring) (counter_new p)) as (c & E & L).
  - cbn. lia.
  - cbn [counter_new ccount]. rewrite segs_length. lia.
  - exists c. split; [exact E|]. specialize (L eq_refl). rewrite <- locate_vec_list in L.
    split; [exact L|]. unfold is_in_ring, locate_in_ring. rewrite L. reflexivity.
Qed.
Theorem C49_is_in_ring p ring l : locate_in_ring p ring = Ok l ->
  exists b, is_in_ring p ring = Ok b /\ (b = true <-> l <> EXTERIOR) /\ (l = INTERIOR \/ l = BOUNDARY \/ l = EXTERIOR).
Proof.
  intros H. unfold is_in_ring. rewrite H. cbn [bind]. eexists. split; [reflexivity|]. split.
  - destruct (Z.eqb_spec l EXTERIOR); cbn; split; intros; try discriminate; try contradiction; auto.
  - unfold locate_in_ring in H. rewrite locate_vec_list in H.
    assert (G : forall c, get_location c = INTERIOR \/ get_location c = BOUNDARY \/ get_location c = EXTERIOR)
      by (intros c; unfold get_location; destruct (con c); [tauto|]; destruct (_ =? 1); tauto).
    revert H. generalize (counter_new p) (segs ring). intros c s. revert c.
    induction s as [|[a b] s IH]; intros c H; cbn [locate_list] in H.
    + injection H as <-. apply G.
    + destruct (count_segment c b a) as [c'|]; [|discriminate]. cbn [bind] in H.
      destruct (con c'); [injection H as <-; apply G|eauto].
Qed.
Definition lring : list Coordinate := [ipt 0 0; ipt 4 0; ipt 4 4; ipt 2 1; ipt 0 4; ipt 0 0].
Example C49_example :
  locate_vec (ipt 1 1) lring = Ok INTERIOR /\ locate_vec (ipt 2 2) lring = Ok EXTERIOR /\
  locate_vec (ipt 2 1) lring = Ok BOUNDARY /\ locate_seq (ipt 1 1) (mkSeq 2 0 lring) = Ok INTERIOR /\
  is_in_ring (ipt 2 2) lring = Ok false.
Proof. repeat split; vm_compute; reflexivity. Qed.

(** ** C50 *)
(** A ring and a point whose ordinates are multiples n*2^e with |n| <= 2^49;
    the ring starts and ends at the same place. *)
Definition grid_ring (e : Z) (p : Coordinate) (ring : list Coordinate) : Prop :=
  -440 <= e <= 420 /\ gpt e p /\ Forall (gpt e) ring /\ ring_closed ring /\ Z.of_nat (length ring) <= i32_max.
Lemma gpt_fin e p : gpt e p -> fin_pt p.
Proof. intros ((n & _ & F & _) & (m & _ & G & _)). split; assumption. Qed.
Lemma grid_located e p ring : grid_ring e p ring -> located p ring.
Proof.
  intros (He & Gp & Gr & Cl & L). split; [now apply gpt_fin with e|]. split; [|split; assumption].
  rewrite Forall_forall in Gr.
  intros a b I. apply segs_In in I. destruct I as [Ia Ib].
  split; [apply gpt_fin with e; auto|]. split; [apply gpt_fin with e; auto|].
  intros _. apply (orient_grid e); auto.
Qed.
(** Boundary exactly on a segment; off the boundary, the parity of the
    number of segments the ray to the right crosses. *)
Theorem C50_boundary e p ring : grid_ring e p ring ->
  (locate_vec p ring = Ok BOUNDARY <-> on_chain (pt p) (map pt ring)).
Proof.
  intros H. destruct (locate_ring_spec p ring (grid_located e p ring H)) as [A B]. split; [|exact A].
  intros E. apply Classical_Prop.NNPP. intros N. destruct (B N) as (k & _ & L). rewrite L in E.
  destruct (Nat.odd k); discriminate.
Qed.
Theorem C50_even_odd e p ring : grid_ring e p ring -> ~ on_chain (pt p) (map pt ring) ->
  exists k, crossings (pt p) (map pt ring) k /\
    (forall k', crossings (pt p) (map pt ring) k' -> k' = k) /\
    locate_vec p ring = Ok (if Nat.odd k then INTERIOR else EXTERIOR).
Proof.
  intros H N. destruct (proj2 (locate_ring_spec p ring (grid_located e p ring H)) N) as (k & K & L).
  exists k. split; [exact K|]. split; [intros k' K'; exact (count_of_fun _ _ _ _ K' K)|exact L].
Qed.
Lemma closed_rev ring : ring_closed ring -> ring_closed (rev ring).
Proof.
  intros (a & m & z & -> & Cl). exists z, (rev m), a. cbn [rev]. rewrite rev_app_distr. split; [reflexivity|congruence].
Qed.
Lemma reverse_located p ring : located p ring -> located p (rev ring) -> locate_vec p (rev ring) = locate_vec p ring.
Proof.
  intros H H'. destruct (locate_ring_spec p ring H) as [A B].
  destruct (Classical_Prop.classic (on_chain (pt p) (map pt ring))) as [O|O].
  - rewrite (A O). apply located_unique; [exact H'|reflexivity|].
    rewrite map_rev. intros N. exfalso. apply N. now apply on_chain_rev.
  - destruct (B O) as (k & K & ->). apply located_unique; [exact H'| |].
    + rewrite map_rev. intros O'. exfalso. apply O. apply on_chain_rev in O'. now rewrite rev_involutive in O'.
    + rewrite map_rev. intros _. exists k. split; [now apply crossings_rev|reflexivity].
Qed.
(** The direction of the ring does not matter, *)
Theorem C50_reverse e p ring : grid_ring e p ring -> locate_vec p (rev ring) = locate_vec p ring.
Proof.
  intros H. pose proof H as (He & Gp & Gr & Cl & L).
  apply reverse_located; apply grid_located with e; [exact H|].
  split; [lia|]. split; [assumption|]. split; [now apply Forall_rev|]. split; [now apply closed_rev|now rewrite rev_length].
Qed.
Lemma rotate_located p a l b m : located p ((a :: l) ++ (b :: m) ++ [a]) -> located p ((b :: m) ++ (a :: l) ++ [b]) ->
  locate_vec p ((b :: m) ++ (a :: l) ++ [b]) = locate_vec p ((a :: l) ++ (b :: m) ++ [a]).
Proof.
  intros H H'.
  assert (P : Permutation (segs (map pt ((a :: l) ++ (b :: m) ++ [a]))) (segs (map pt ((b :: m) ++ (a :: l) ++ [b])))).
  { rewrite !segs_map. apply Permutation_map, segs_rotate. }
  destruct (locate_ring_spec p _ H) as [A B].
  destruct (Classical_Prop.classic (on_chain (pt p) (map pt ((a :: l) ++ (b :: m) ++ [a])))) as [O|O].
  - rewrite (A O). apply located_unique; [exact H'|reflexivity|].
    intros N. exfalso. apply N. eapply on_chain_perm; eassumption.
  - destruct (B O) as (k & K & ->). apply located_unique; [exact H'| |].
    + intros O'. exfalso. apply O. eapply on_chain_perm; [symmetry|]; eassumption.
    + intros _. exists k. split; [|reflexivity]. unfold crossings. eapply count_of_perm; eassumption.
Qed.
(** nor does the vertex it starts at. *)
Theorem C50_rotate e p a l b m : grid_ring e p ((a :: l) ++ (b :: m) ++ [a]) ->
  locate_vec p ((b :: m) ++ (a :: l) ++ [b]) = locate_vec p ((a :: l) ++ (b :: m) ++ [a]).
Proof.
  intros H. pose proof H as (He & Gp & Gr & _ & L). apply rotate_located; apply grid_located with e; [exact H|].
  split; [lia|]. split; [assumption|]. split.
  - rewrite !Forall_app in *. destruct Gr as (G1 & G2 & _). split; [exact G2|]. split; [exact G1|].
    inversion G2; subst. constructor; [assumption|constructor].
  - split; [exists b, (m ++ a :: l), b; split; [cbn [app]; now rewrite <- app_assoc|reflexivity]|].
    rewrite !app_length in *. cbn [length] in *. lia.
Qed.
Lemma outside_located p ring : located p ring -> (forall q, In q ring -> fin_pt q) ->
  covers_xy (envelope_of ring) (cx p) (cy p) = false -> locate_vec p ring = Ok EXTERIOR.
Proof.
  intros H Fr Cv. pose proof H as ((Fpx & Fpy) & _ & (a & m & z & E & Cl) & L).
  assert (Nn : Forall nn_xy ring) by (apply Forall_forall; intros q I; destruct (Fr q I); split; now apply nn_finite).
  assert (W : wf_env (envelope_of ring)) by now apply envelope_of_wf.
  assert (NB : ~ in_box (envelope_of ring) (cx p) (cy p)).
  { intros B. apply (proj2 (covers_xy_spec _ _ _ W)) in B. congruence. }
  assert (Box : forall q, In q ring -> in_box (envelope_of ring) (cx q) (cy q)) by (intros; now apply envelope_of_covers).
  assert (Bs : beside (pt p) (map pt ring)).
  { unfold in_box, lef in *.
    assert (Ne : In a ring) by (rewrite E; now left).
    destruct (Box a Ne) as (B1 & B2 & B3 & B4).
    apply fleb_nn in B1 as N1. apply fleb_nn in B2 as N2. apply fleb_nn in B3 as N3. apply fleb_nn in B4 as N4.
    destruct N1 as [N1 _], N2 as [_ N2], N3 as [N3 _], N4 as [_ N4].
    pose proof (nn_finite _ Fpx) as Npx. pose proof (nn_finite _ Fpy) as Npy.
    rewrite !fleb_rank in NB by assumption.
    set (en := envelope_of ring) in *.
    assert (Lt : forall x y, fis_finite x = true -> fis_finite y = true -> rank x < rank y -> (R_of x < R_of y)%R).
    { intros x y Fx Fy Hxy. destruct (Rlt_or_le (R_of x) (R_of y)) as [G|G]; [exact G|].
      apply (proj2 (rank_leR y x Fy Fx)) in G. lia. }
    unfold beside.
    destruct (Z.leb_spec (rank (minx en)) (rank (cx p))) as [C1|C1].
    2: { left. intros b I. apply in_map_iff in I. destruct I as (q & <- & I). cbn. destruct (Fr q I) as [Fq _].
         apply Lt; try assumption. destruct (Box q I) as (Q & _). rewrite fleb_rank in Q by (try assumption; now apply nn_finite).
         apply Z.leb_le in Q. lia. }
    destruct (Z.leb_spec (rank (cx p)) (rank (maxx en))) as [C2|C2].
    2: { right; left. intros b I. apply in_map_iff in I. destruct I as (q & <- & I). cbn. destruct (Fr q I) as [Fq _].
         apply Lt; try assumption. destruct (Box q I) as (_ & Q & _). rewrite fleb_rank in Q by (try assumption; now apply nn_finite).
         apply Z.leb_le in Q. lia. }
    destruct (Z.leb_spec (rank (miny en)) (rank (cy p))) as [C3|C3].
    2: { right; right; left. intros b I. apply in_map_iff in I. destruct I as (q & <- & I). cbn. destruct (Fr q I) as [_ Fq].
         apply Lt; try assumption. destruct (Box q I) as (_ & _ & Q & _). rewrite fleb_rank in Q by (try assumption; now apply nn_finite).
         apply Z.leb_le in Q. lia. }
    destruct (Z.leb_spec (rank (cy p)) (rank (maxy en))) as [C4|C4].
    2: { right; right; right. intros b I. apply in_map_iff in I. destruct I as (q & <- & I). cbn. destruct (Fr q I) as [_ Fq].
         apply Lt; try assumption. destruct (Box q I) as (_ & _ & _ & Q). rewrite fleb_rank in Q by (try assumption; now apply nn_finite).
         apply Z.leb_le in Q. lia. }
    exfalso. apply NB. repeat split. }
  destruct (proj2 (locate_ring_spec p ring H) (beside_off _ _ Bs)) as (k & K & ->).
  rewrite E in Bs, K. cbn [map] in Bs, K. rewrite map_app in Bs, K. cbn [map] in Bs, K. rewrite <- Cl in Bs, K.
  now rewrite (beside_even _ _ _ _ Bs K).
Qed.
(** Outside the envelope of the ring every point is exterior. *)
Theorem C50_outside_envelope e p ring : grid_ring e p ring ->
  covers_xy (envelope_of ring) (cx p) (cy p) = false -> locate_vec p ring = Ok EXTERIOR.
Proof.
  intros H. apply outside_located; [now apply grid_located with e|]. destruct H as (_ & _ & Gr & _).
  intros q I. rewrite Forall_forall in Gr. eapply gpt_fin; eauto.
Qed.
Lemma triangle_located p a b c : located p [a; b; c; a] -> (0 < det_pts a b c)%R ->
  (locate_vec p [a; b; c; a] = Ok INTERIOR <->
   (0 < det_pts a b p /\ 0 < det_pts b c p /\ 0 < det_pts c a p)%R).
Proof.
  intros H D. change (det_pts a b c) with (dt (pt a) (pt b) (pt c)) in D.
  change (det_pts a b p) with (dt (pt a) (pt b) (pt p)). change (det_pts b c p) with (dt (pt b) (pt c) (pt p)).
  change (det_pts c a p) with (dt (pt c) (pt a) (pt p)).
  destruct (locate_ring_spec p _ H) as [A B]. cbn [map] in A, B.
  destruct (Classical_Prop.classic (on_chain (pt p) [pt a; pt b; pt c; pt a])) as [O|O].
  - rewrite (A O). split; [discriminate|]. intros (D1 & D2 & D3). exfalso.
    destruct O as (x & y & I & O). apply on_seg_dt in O.
    destruct I as [I|[I|[I|[]]]]; injection I as <- <-; lra.
  - destruct (B O) as (k & K & ->). rewrite <- (triangle_parity _ _ _ _ _ D O K).
    destruct (Nat.odd k); split; intros; try reflexivity; discriminate.
Qed.
(** In a triangle turning counterclockwise, interior means strictly to the
    left of all three sides. *)
Theorem C50_triangle e p a b c : grid_ring e p [a; b; c; a] -> (0 < det_pts a b c)%R ->
  (locate_vec p [a; b; c; a] = Ok INTERIOR <->
   (0 < det_pts a b p /\ 0 < det_pts b c p /\ 0 < det_pts c a p)%R).
Proof. intros H. apply triangle_located. now apply grid_located with e. Qed.
Example C50_example : grid_ring 0 (ipt 1 1) lring /\ covers_xy (envelope_of lring) (cx (ipt 5 1)) (cy (ipt 5 1)) = false /\
  grid_ring 0 (ipt 1 1) [ipt 0 0; ipt 4 0; ipt 0 4; ipt 0 0] /\ (0 < det_pts (ipt 0 0) (ipt 4 0) (ipt 0 4))%R.
Proof.
  split; [|split; [vm_compute; reflexivity|split]].
  - split; [lia|]. split; [apply ipt_gpt; lia|]. split; [unfold lring; repeat constructor; apply ipt_gpt; lia|].
    split; [|cbn; unfold i32_max; lia]. exists (ipt 0 0), [ipt 4 0; ipt 4 4; ipt 2 1; ipt 0 4], (ipt 0 0). split; reflexivity.
  - split; [lia|]. split; [apply ipt_gpt; lia|]. split; [repeat constructor; apply ipt_gpt; lia|].
    split; [|cbn; unfold i32_max; lia]. exists (ipt 0 0), [ipt 4 0; ipt 0 4], (ipt 0 0). split; reflexivity.
  - assert (Rz : forall z, Z.abs z <= 2 ^ 53 -> R_of (fofZ z) = IZR z).
    { intros z Hz. rewrite (proj2 (grid_fofZ z Hz)). cbn. lra. }
    unfold det_pts, det3. cbn [ipt new_xy cx cy]. rewrite !Rz by lia. lra.
Qed.

(** ** C51 *)
Theorem C51_on_line p line : exists b, is_on_line_vec p line = Ok b /\
  (b = true <-> exists l1 a c l2, line = l1 ++ a :: c :: l2 /\ is_on_segment p a c = true).
Proof.
  rewrite is_on_line_vec_list. eexists. split; [reflexivity|]. rewrite existsb_exists. split.
  - intros ([a c] & I & O). cbn in O. revert I. induction line as [|x l IH]; [contradiction|].
    destruct l as [|y l]; [contradiction|]. rewrite segs_cons. intros [E|I].
    + injection E as -> ->. exists [], a, c, l. split; [reflexivity|exact O].
    + destruct (IH I) as (l1 & a' & c' & l2 & -> & O'). exists (x :: l1), a', c', l2. split; [reflexivity|exact O'].
  - intros (l1 & a & c & l2 & -> & O). exists (a, c). split; [|exact O].
    rewrite segs_app. apply in_or_app. right. rewrite segs_cons. now left.
Qed.
Theorem C51_sequence_vector p s : is_on_line_seq p s = is_on_line_vec p (scoords s).
Proof. exact (is_on_line_seq_vec p s). Qed.
(** On the grid: exactly the points of the segment, and of the line. *)
Theorem C51_on_segment e p a b : -440 <= e <= 420 -> gpt e p -> gpt e a -> gpt e b ->
  (is_on_segment p a b = true <-> on_seg (pt p) (pt a) (pt b)).
Proof.
  intros He Gp Ga Gb. apply is_on_segment_spec; try (now apply gpt_fin with e). now apply (orient_grid e).
Qed.
Theorem C51_on_line_grid e p line : -440 <= e <= 420 -> gpt e p -> Forall (gpt e) line ->
  exists b, is_on_line_vec p line = Ok b /\ (b = true <-> on_chain (pt p) (map pt line)).
Proof.
  intros He Gp Gl. rewrite is_on_line_vec_list. eexists. split; [reflexivity|].
  rewrite existsb_exists, on_chain_map. rewrite Forall_forall in Gl. split.
  - intros ([a c] & I & O). exists a, c. split; [exact I|]. pose proof (segs_In _ _ _ I) as [Ia Ic].
    apply (C51_on_segment e); auto.
  - intros (a & c & I & O). exists (a, c). split; [exact I|]. pose proof (segs_In _ _ _ I) as [Ia Ic].
    apply (C51_on_segment e); auto.
Qed.
(** A point on the ring as a line is a boundary point of the ring. *)
Theorem C51_boundary_is_on_line e p ring : grid_ring e p ring ->
  (is_on_line_vec p ring = Ok true <-> locate_vec p ring = Ok BOUNDARY).
Proof.
  intros H. rewrite (C50_boundary e p ring H). destruct H as (He & Gp & Gr & _).
  destruct (C51_on_line_grid e p ring He Gp Gr) as (b & -> & Hb). rewrite <- Hb.
  split; [intros E; now injection E|now intros ->].
Qed.
Example C51_example : is_on_line_vec (ipt 2 0) lring = Ok true /\ is_on_line_vec (ipt 1 1) lring = Ok false /\
  gpt 0 (ipt 2 0) /\ Forall (gpt 0) lring.
Proof.
  split; [vm_compute; reflexivity|]. split; [vm_compute; reflexivity|]. split; [apply ipt_gpt; lia|].
  unfold lring. repeat constructor; apply ipt_gpt; lia.
Qed.
