(** Packed sequences: swapping, closing, extending and scrolling carry every ordinate (C30 to C32);
    the tolerance test on Z (C11). *)
From Coq Require Import ZArith Bool List Lia Reals Lra.
From Verif Require Import Base F64 F64Facts Coordinate_model Coordinate_spec Envelope_model Envelope_spec Coordinate_proofs CoordArrays_model
  CoordSeq_model CoordSeq_spec CoordSeq_generic CoordSeq_proofs CoordSeq_props.
Import ListNotations.
Open Scope Z_scope.

(** ** C11: Z within a tolerance *)
Theorem C11_z_within_tolerance : forall p q t t', fis_finite (cz p) = true -> fis_finite (cz q) = true ->
  fis_finite t = true -> fis_finite t' = true -> (R_of t < R_of t')%R ->
  equal_in_z p q t = equal_in_z q p t /\
  ((Rabs (R_of (cz p) - R_of (cz q)) <= R_of t)%R -> equal_in_z p q t = true) /\
  (equal_in_z p q t = true -> (Rabs (R_of (cz p) - R_of (cz q)) < R_of t')%R).
Proof.
  intros p q t t' P Q T T' L. unfold equal_in_z. split; [apply equals_with_tolerance_sym|]. split.
  - intros A. now apply tolerance_complete.
  - intros E. now apply (tolerance_sound _ _ t).
Qed.
(** A missing Z is never within any tolerance, of another or of itself. *)
Theorem C11_z_missing : forall p q t, fis_nan (cz p) = true \/ fis_nan (cz q) = true -> equal_in_z p q t = false.
Proof.
  intros p q t H. unfold equal_in_z, equals_with_tolerance, fsub, fabs, fleb, fis_nan in *.
  destruct H as [H|H].
  - destruct (cz p); try discriminate H. reflexivity.
  - destruct (cz q); try discriminate H. now destruct (cz p).
Qed.
Example C11_z_example :
  equal_in_z (new_xyz f0 f0 f1) (new_xyz f2 f0 f2) f1 = true /\ equal_in_z (new_xyz f0 f0 f0) (new_xyz f0 f0 f2) f1 = false /\
  equal_in_z (new_xym f0 f0 f0) (new_xym f0 f0 f0) f1 = false.
Proof. split; [|split]; reflexivity. Qed.

(** ** C32: swapping *)
Theorem C32_packed_swap : forall p n i j, packed_ok p n -> (i < n)%nat -> (j < n)%nat ->
  exists p', packed_swap p i j = Ok p' /\ packed_ok p' n /\ pdim p' = pdim p /\ pmeas p' = pmeas p /\
    forall a k, (k < Z.to_nat (pdim p))%nat ->
      (a = i -> flat p' a k = flat p j k) /\ (a = j -> flat p' a k = flat p i k) /\
      (a <> i -> a <> j -> flat p' a k = flat p a k).
Proof.
  intros p n i j G Hi Hj. destruct (swap_spec Packed pdim packed_get packed_set packed_ok view_p w_p pmeas
    p_get p_set p n i j G Hi Hj) as (p' & E & G' & (H1 & _ & H3) & V).
  exists p'. repeat (split; [assumption|]). intros a k Hk. specialize (V a k). unfold view_p in V.
  rewrite H1, vis_p, (proj2 (Nat.ltb_lt _ _) Hk) in V. rewrite V. unfold tr.
  destruct (Nat.eqb_spec a i), (Nat.eqb_spec a j); repeat split; intros; subst; try congruence.
Qed.
Theorem C32_same_after_swap : forall p s i j, same_content p s ->
  (i < length (scoords s))%nat -> (j < length (scoords s))%nat ->
  exists p' s', packed_swap p i j = Ok p' /\ seq_swap s i j = Ok s' /\ same_content p' s'.
Proof.
  intros p s i j H Hi Hj. pose proof H as (Ed & Em & Es & G & V).
  destruct (C32_packed_swap p _ i j G Hi Hj) as (p' & E & G' & Pd & Pm & F).
  destruct (seq_swap_spec s i j Hi Hj) as (s' & E' & Sd & Sm & L & F').
  exists p', s'. split; [exact E|]. split; [exact E'|].
  apply (sc_intro p s s' p' (length (scoords s))); auto.
  intros a k Ha Hk. rewrite F', blend_ord. rewrite Es, (proj2 (Nat.ltb_lt k _)) by lia.
  destruct (F a k ltac:(lia)) as (A & B & C). unfold tr.
  destruct (Nat.eqb_spec a i) as [Ea|Na]; [rewrite (A Ea); apply V; lia|].
  destruct (Nat.eqb_spec a j) as [Eb|Nb]; [rewrite (B Eb); apply V; lia|].
  rewrite (C Na Nb). apply V; lia.
Qed.

(** ** C30: closing and extending a packed sequence *)
Theorem C30_packed_closed_ring : forall p n m, packed_ok p n -> (0 < n <= m)%nat -> Z.of_nat m * pdim p <= usize_max ->
  exists p', packed_create_closed_ring p m = Ok p' /\ packed_ok p' m /\ pdim p' = pdim p /\ pmeas p' = Z.max 0 (pdim p - 3) /\
    (forall i k, (i < n)%nat -> (k < Z.to_nat (pdim p))%nat -> flat p' i k = flat p i k) /\
    (forall i k, (n <= i < m)%nat -> (k < Z.to_nat (pdim p))%nat -> flat p' i k = flat p 0 k).
Proof.
  intros p n m G Hn F. pose proof G as ((D1 & D2) & _).
  destruct (create_closed_ring_spec Packed packed_size pdim packed_get packed_set packed_create packed_ok view_p w_p pmeas fits_p cdim_p cmeas_p
    p_size p_get p_set p_create p n m G ltac:(lia) ltac:(lia) F D1) as (p' & E & G' & _ & _ & D' & M' & P & Q).
  unfold cdim_p in D'. exists p'. split; [exact E|]. split; [exact G'|]. split; [exact D'|]. split; [exact M'|].
  rewrite vis_p in P, Q. unfold view_p in P, Q. rewrite D' in P, Q.
  split; intros i k Hi Hk; [specialize (P i k Hi Hk)|specialize (Q i k Hi Hk)];
    rewrite (proj2 (Nat.ltb_lt _ _) Hk) in *; assumption.
Qed.
Theorem C30_packed_extend : forall p n m, packed_ok p n -> (0 < n <= m)%nat -> Z.of_nat m * pdim p <= usize_max ->
  exists p', packed_extend p m = Ok p' /\ packed_ok p' m /\ pdim p' = pdim p /\ pmeas p' = Z.max 0 (pdim p - 3) /\
    (forall i k, (i < n)%nat -> (k < Z.to_nat (pdim p))%nat -> flat p' i k = flat p i k) /\
    (forall i k, (n <= i < m)%nat -> (k < Z.to_nat (pdim p))%nat -> flat p' i k = flat p (n - 1) k).
Proof.
  intros p n m G Hn F. pose proof G as ((D1 & D2) & _).
  destruct (extend_spec Packed packed_size pdim packed_get packed_set packed_create packed_ok view_p w_p pmeas fits_p cdim_p cmeas_p
    p_size p_get p_set p_create p n m G ltac:(lia) ltac:(lia) F D1) as (p' & E & G' & _ & _ & D' & M' & P & Q).
  unfold cdim_p in D'. exists p'. split; [exact E|]. split; [exact G'|]. split; [exact D'|]. split; [exact M'|].
  rewrite vis_p in P, Q. unfold view_p in P, Q. rewrite D' in P, Q.
  split; intros i k Hi Hk; [specialize (P i k Hi Hk)|specialize (Q i k Hi Hk)];
    rewrite (proj2 (Nat.ltb_lt _ _) Hk) in *; assumption.
Qed.
Example C30_packed_moves_example :
  packed_ok (mkPacked 3 0 [f0; f1; f2; f2; f1; f0]) 2 /\
  packed_create_closed_ring (mkPacked 3 0 [f0; f1; f2; f2; f1; f0]) 3 = Ok (mkPacked 3 0 [f0; f1; f2; f2; f1; f0; f0; f1; f2]) /\
  packed_extend (mkPacked 3 0 [f0; f1; f2; f2; f1; f0]) 3 = Ok (mkPacked 3 0 [f0; f1; f2; f2; f1; f0; f2; f1; f0]) /\
  packed_swap (mkPacked 3 0 [f0; f1; f2; f2; f1; f0]) 0 1 = Ok (mkPacked 3 0 [f2; f1; f0; f0; f1; f2]).
Proof.
  split; [|split; [|split]; reflexivity]. split; [|split]; cbn; unfold i32_max, usize_max; lia.
Qed.

(** ** C31 and C32: scrolling to an index or to a coordinate, packed as array *)
Theorem C32_same_after_scroll_index : forall p s i, same_content p s -> scoords s <> [] ->
  exists p' s', packed_scroll_index p i = Ok p' /\ seq_scroll_index s i = Ok s' /\ same_content p' s'.
Proof.
  intros p s i H Hne. unfold packed_scroll_index, sq_scroll_index, seq_scroll_index, sq_scroll_index.
  fold seq_is_ring packed_is_ring packed_scroll_ring seq_scroll_ring. rewrite (sc_is_ring p s H), seq_is_ring_spec. cbn [bind].
  apply sc_scroll; [exact H|]. assert (length (scoords s) =? 0 = false)%nat as -> by (apply Nat.eqb_neq; destruct (scoords s); [easy|cbn; lia]).
  cbn [orb]. intros C. apply andb_prop in C. destruct C as [C _]. apply Nat.ltb_lt in C. lia.
Qed.
Theorem C32_same_after_scroll_coordinate : forall p s c, same_content p s -> small_seq s ->
  exists p' s', packed_scroll_coordinate p c = Ok p' /\ seq_scroll_coordinate s c = Ok s' /\ same_content p' s'.
Proof.
  intros p s c H Hs. unfold packed_scroll_coordinate, seq_scroll_coordinate, sq_scroll_coordinate.
  fold packed_index_of seq_index_of packed_scroll_index seq_scroll_index. rewrite (sc_index_of p s c H Hs).
  destruct (seq_index_of_spec c s Hs) as (z & -> & R). cbn [bind]. destruct (Z.leb_spec z 0).
  - exists p, s. auto.
  - apply C32_same_after_scroll_index; [exact H|]. destruct R as [[-> _]|(i & -> & Hi & _)]; [lia|].
    intros E. rewrite E in Hi. cbn in Hi. lia.
Qed.
Theorem C31_packed_scroll_index : forall p n i, packed_ok p n -> (0 < i)%nat -> (0 < n)%nat ->
  let ring := (3 <? n)%nat && feqb (flat p 0 0) (flat p (n - 1) 0) && feqb (flat p 0 1) (flat p (n - 1) 1) in
  let last := (if ring then n - 1 else n)%nat in
  exists p', packed_scroll_index p i = Ok p' /\ packed_ok p' n /\ pdim p' = pdim p /\ pmeas p' = pmeas p /\
    (forall j k, (j < last)%nat -> (k < Z.to_nat (pdim p))%nat -> flat p' j k = flat p ((i + j) mod last) k) /\
    (ring = true -> forall k, (k < Z.to_nat (pdim p))%nat -> flat p' last k = flat p (i mod last) k).
Proof.
  intros p n i G Hi Hn ring last. unfold packed_scroll_index, sq_scroll_index. fold packed_is_ring packed_scroll_ring.
  rewrite (packed_is_ring_spec p _ G). cbn [bind].
  assert (n =? 0 = false)%nat as -> by (apply Nat.eqb_neq; lia). cbn [orb]. rewrite !andb_assoc. fold ring.
  apply packed_scroll_spec; [exact G|exact Hi|]. unfold ring. intros C.
  apply andb_prop in C. destruct C as [C _]. apply andb_prop in C. destruct C as [C _]. apply Nat.ltb_lt in C. lia.
Qed.
Example C31_packed_example :
  packed_ok (mkPacked 2 0 [f0; f1; f2; f2; f1; f0]) 3 /\
  packed_scroll_index (mkPacked 2 0 [f0; f1; f2; f2; f1; f0]) 2 = Ok (mkPacked 2 0 [f1; f0; f0; f1; f2; f2]) /\
  packed_scroll_coordinate (mkPacked 2 0 [f0; f1; f2; f2; f1; f0]) (new_xy f2 f2) = Ok (mkPacked 2 0 [f2; f2; f1; f0; f0; f1]).
Proof.
  split; [|split; reflexivity]. split; [|split]; cbn; unfold i32_max, usize_max; lia.
Qed.

(** ** C31: the smallest point of the whole sequence *)
Theorem C31_min_index_whole : forall s, small_seq s -> Forall nn_xy (scoords s) ->
  (scoords s = [] -> seq_min_index s = Panic) /\
  (scoords s <> [] ->
   exists r, seq_min_index s = Ok (Z.of_nat r) /\ (r < length (scoords s))%nat /\
    (forall j, (j < length (scoords s))%nat -> ~ pt_lt (point s j) (point s r)) /\
    (forall j, (j < r)%nat -> pt_lt (point s r) (point s j))).
Proof.
  intros s Hs F. unfold seq_min_index, sq_min_index, arr_size, seq_size. cbn [bind]. split; intros H.
  - rewrite H. reflexivity.
  - assert (0 < length (scoords s))%nat as L by (destruct (scoords s); [easy|cbn; lia]).
    unfold usub. destruct (Nat.leb_spec 1 (length (scoords s))); [|lia]. cbn [bind].
    fold seq_min_index_from_to.
    destruct (seq_min_index_spec s 0 (length (scoords s) - 1) ltac:(lia) Hs F) as (r & -> & Hr & A & B).
    exists r. split; [reflexivity|]. split; [lia|]. split; intros j Hj; [apply A|apply B]; lia.
Qed.
Theorem C31_packed_min : forall p n, packed_ok p n -> Z.of_nat n <= 2147483648 ->
  (forall i, (i < n)%nat -> nn (flat p i 0) /\ nn (flat p i 1)) ->
  let at_ i := new_xy (flat p i 0) (flat p i 1) in
  ((n = 0%nat -> packed_min_index p = Panic /\ packed_min_coordinate p = Ok None)) /\
  ((0 < n)%nat ->
   exists r c, packed_min_index p = Ok (Z.of_nat r) /\ (r < n)%nat /\
    (forall j, (j < n)%nat -> ~ pt_lt (at_ j) (at_ r)) /\ (forall j, (j < r)%nat -> pt_lt (at_ r) (at_ j)) /\
    packed_min_coordinate p = Ok (Some c) /\ (exists i, (i < n)%nat /\ packed_coord p i = Ok c) /\
    (forall j, (j < n)%nat -> ~ pt_lt (at_ j) c)).
Proof.
  intros p n G Hn N at_.
  assert (forall i, cx (pt_of_p p i) = flat p i 0 /\ cy (pt_of_p p i) = flat p i 1) as XY.
  { intros i. unfold pt_of_p. split; reflexivity. }
  assert (forall i, (i < n)%nat -> nn_xy (pt_of_p p i)) as NP.
  { intros i Hi. unfold nn_xy. destruct (XY i) as [-> ->]. now apply N. }
  unfold packed_min_index, sq_min_index. rewrite (p_size p n G). cbn [bind].
  destruct (min_coordinate_spec_seq Packed packed_size packed_ok p_size packed_coord pt_of_p p_coord p n G NP) as (o & E & P).
  fold packed_min_coordinate in E. split.
  - intros ->. split; [reflexivity|]. rewrite E. destruct o as [c|]; [|reflexivity]. destruct P as ((i & Hi & _) & _). lia.
  - intros L. unfold usub. destruct (Nat.leb_spec 1 n); [|lia]. cbn [bind].
    destruct (min_index_spec Packed packed_ok packed_coord pt_of_p p_coord p n 0 (n - 1) G ltac:(lia) Hn NP) as (r & -> & Hr & A & B).
    destruct o as [c|]; [|lia]. destruct P as ((i & Hi & Ec) & P).
    assert (forall a b, pt_lt (pt_of_p p a) b <-> pt_lt (at_ a) b) as Q1.
    { intros a b. unfold pt_lt. destruct (XY a) as [-> ->]. reflexivity. }
    assert (forall a b, pt_lt b (pt_of_p p a) <-> pt_lt b (at_ a)) as Q2.
    { intros a b. unfold pt_lt. destruct (XY a) as [-> ->]. reflexivity. }
    exists r, c. split; [reflexivity|]. split; [lia|].
    split; [intros j Hj; rewrite <- Q1, <- Q2; apply A; lia|].
    split; [intros j Hj; rewrite <- Q1, <- Q2; apply B; lia|]. split; [exact E|].
    split; [exists i; split; [exact Hi|rewrite Ec; now apply p_coord with n]|].
    intros j Hj. rewrite <- Q1. now apply P.
Qed.
Example C31_min_example :
  seq_min_index (seq_of [xy 4 0; xy 1 3; xy 1 2; xy 1 2]) = Ok 2 /\
  packed_min_index (mkPacked 2 0 [f2; f1; f0; f2; f0; f1]) = Ok 2 /\
  packed_min_coordinate (mkPacked 2 0 [f2; f1; f0; f2; f0; f1]) = Ok (Some (new_xy f0 f1)).
Proof. split; [|split]; reflexivity. Qed.
