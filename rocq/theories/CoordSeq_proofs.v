From Coq Require Import ZArith Bool List Lia.
From Verif Require Import Base F64 F64Facts Coordinate_model Coordinate_spec Envelope_model Envelope_spec
  Coordinate_proofs CoordArrays_model CoordArrays_proofs CoordSeq_model CoordSeq_spec CoordSeq_generic.
Import ListNotations.
Open Scope nat_scope.

(** ** The array instance *)
Definition good_a (s : CSeq) (n : nat) : Prop := length (scoords s) = n.
Definition view_a (s : CSeq) (i k : nat) : f64 := ord4 (point s i) k.
Definition w_a (s : CSeq) : nat := 3.
Definition fits_a (m : nat) (s : CSeq) : Prop := True.
Definition vis_a (s : CSeq) : nat := Nat.min (Z.to_nat (sdim s)) 3.

Lemma a_size s n : good_a s n -> arr_size s = Ok n.
Proof. unfold good_a. intros <-. reflexivity. Qed.
Lemma seq_get_spec s i k : i < length (scoords s) ->
  seq_get s i (Z.of_nat k) = Ok (if k <? 3 then ord4 (point s i) k else fnan).
Proof.
  intros H. unfold seq_get. rewrite (idx_nth _ _ coord_default H). cbn [bind]. fold (point s i).
  destruct k as [|[|[|k]]]; try reflexivity.
  rewrite (proj2 (Nat.ltb_ge (S (S (S k))) 3)) by lia.
  rewrite !(proj2 (Z.eqb_neq _ _)) by lia. unfold get_ordinate. now rewrite !(proj2 (Z.eqb_neq _ _)) by lia.
Qed.
Lemma a_get s n i k : good_a s n -> i < n -> k < Nat.max 2 (D CSeq sdim s) ->
  seq_get s i (Z.of_nat k) = Ok (if k <? w_a s then view_a s i k else fnan).
Proof. unfold good_a. intros <- Hi _. now apply seq_get_spec. Qed.
Lemma seq_set_spec s i k v : i < length (scoords s) ->
  exists s', seq_set s i (Z.of_nat k) v = Ok s' /\ length (scoords s') = length (scoords s) /\
    sdim s' = sdim s /\ smeas s' = smeas s /\
    forall i' k', ord4 (point s' i') k' = if (i' =? i) && (k' =? k) && (k <? 3) then v else ord4 (point s i') k'.
Proof.
  intros H. unfold seq_set. rewrite (idx_nth _ _ coord_default H). cbn [bind].
  match goal with |- context [upd _ _ ?a] => destruct (upd_some (scoords s) i a H) as (cs & E) end.
  rewrite E. cbn [bind]. eexists. split; [reflexivity|].
  destruct (upd_spec _ _ _ _ E) as (L & _ & N). cbn [scoords sdim smeas]. repeat (split; [assumption || reflexivity|]).
  intros i' k'. unfold point at 1. cbn [scoords]. rewrite N. fold (point s i') (point s i).
  destruct (Nat.eqb_spec i' i) as [->|]; cbn [andb]; [|reflexivity].
  destruct k as [|[|[|k]]]; cbn [Z.of_nat].
  1-3: destruct k' as [|[|[|[|k']]]]; reflexivity.
  rewrite (proj2 (Nat.ltb_ge (S (S (S k))) 3)) by lia. rewrite andb_false_r.
  unfold set_ordinate. now rewrite !(proj2 (Z.eqb_neq _ _)) by lia.
Qed.
Lemma a_set s n i k v : good_a s n -> i < n -> k < D CSeq sdim s ->
  exists s', seq_set s i (Z.of_nat k) v = Ok s' /\ good_a s' n /\ hdr CSeq sdim w_a smeas s s' /\
    forall i' k', view_a s' i' k' = if (i' =? i) && (k' =? k) && (k <? w_a s) then v else view_a s i' k'.
Proof.
  unfold good_a. intros <- Hi _. destruct (seq_set_spec s i k v Hi) as (s' & E & L & A & B & C).
  exists s'. split; [exact E|]. split; [exact L|]. split; [easy|]. exact C.
Qed.
Lemma fill_copy {A} (l : list A) d : forN (length l) 0 (repeat d (length l)) (fun i cs => c <- idx l i ;; upd cs i c) = Ok l.
Proof.
  destruct (forN_ind (fun i cs => length cs = length l /\ forall j, j < i -> nth j cs d = nth j l d)
    (fun i cs => c <- idx l i ;; upd cs i c) (length l) 0 (repeat d (length l))) as (cs & E & L & P).
  - split; [apply repeat_length|]. intros; lia.
  - intros i cs Hi (L & P). rewrite (idx_nth l i d) by lia. cbn [bind].
    destruct (upd_some cs i (nth i l d)) as (cs' & E); [lia|]. exists cs'. split; [exact E|].
    destruct (upd_spec _ _ _ _ E) as (L' & _ & N). split; [lia|]. intros j Hj. rewrite N.
    destruct (Nat.eqb_spec j i) as [->|]; [reflexivity|]. apply P. lia.
  - rewrite E. f_equal. apply nth_ext_eq with d; [assumption|]. intros j Hj. apply P. lia.
Qed.
Lemma seq_copy_id s : seq_copy s = Ok s.
Proof. unfold seq_copy. rewrite fill_copy. now destruct s. Qed.
Lemma a_copy s n : good_a s n -> seq_copy s = Ok s.
Proof. intros _. apply seq_copy_id. Qed.
Lemma a_w s n : good_a s n -> 2 <= w_a s.
Proof. unfold w_a. lia. Qed.
Definition cmeas_a (d : Z) : Z := 0%Z.
Lemma a_create s n m : good_a s n -> fits_a m s -> (2 <= sdim s)%Z ->
  exists s', arr_create m (sdim s) = Ok s' /\ good_a s' m /\ w_a s' = w_a s /\
    vis CSeq sdim w_a s' = vis CSeq sdim w_a s /\ sdim s' = Z.min 3 (sdim s) /\ smeas s' = cmeas_a (sdim s).
Proof.
  intros _ _ H. unfold arr_create. eexists. split; [reflexivity|]. unfold seq_create.
  destruct (Z.gtb_spec (sdim s) 3).
  - split; [apply repeat_length|]. split; [reflexivity|]. unfold vis, D, w_a. cbn [sdim smeas seq_new_size_dim Z.ltb]. cbn.
    split; [lia|]. split; [lia|reflexivity].
  - rewrite (proj2 (Z.ltb_ge (sdim s) 2)) by lia. split; [apply repeat_length|]. split; [reflexivity|]. split; [reflexivity|]. cbn.
    split; [lia|reflexivity].
Qed.
Definition pt_of_a (s : CSeq) (i : nat) : Coordinate := point s i.
Lemma a_coord s n i : good_a s n -> i < n -> seq_coord s i = Ok (pt_of_a s i).
Proof. unfold good_a. intros <- H. unfold seq_coord. now apply idx_nth. Qed.

Lemma coord_ext a b : (forall k, k < 4 -> ord4 a k = ord4 b k) -> a = b.
Proof.
  intros H. destruct a as [ax ay az am], b as [bx by_ bz bm].
  pose proof (H 0 ltac:(lia)) as H0. pose proof (H 1 ltac:(lia)) as H1. pose proof (H 2 ltac:(lia)) as H2. pose proof (H 3 ltac:(lia)) as H3.
  cbn in *. congruence.
Qed.
Lemma seq_ext s s' : sdim s = sdim s' -> smeas s = smeas s' -> length (scoords s) = length (scoords s') ->
  (forall i, i < length (scoords s) -> point s i = point s' i) -> s = s'.
Proof.
  destruct s as [d m l], s' as [d' m' l']. cbn. intros -> -> L P. f_equal.
  now apply nth_ext_eq with coord_default.
Qed.
Lemma blend_ord d a b k : ord4 (blend d a b) k =
  if k <? Nat.min (Z.to_nat d) 3 then ord4 a k else ord4 b k.
Proof.
  unfold blend. destruct k as [|[|[|k]]]; cbn [ord4 cx cy cz cm].
  - destruct (Z.ltb_spec 0 d), (Nat.ltb_spec 0 (Nat.min (Z.to_nat d) 3)); reflexivity || lia.
  - destruct (Z.ltb_spec 1 d), (Nat.ltb_spec 1 (Nat.min (Z.to_nat d) 3)); reflexivity || lia.
  - destruct (Z.ltb_spec 2 d), (Nat.ltb_spec 2 (Nat.min (Z.to_nat d) 3)); reflexivity || lia.
  - rewrite (proj2 (Nat.ltb_ge _ _)) by lia. destruct k; reflexivity.
Qed.

Lemma seq_reverse_spec s :
  exists s', seq_reverse s = Ok s' /\ sdim s' = sdim s /\ smeas s' = smeas s /\
    length (scoords s') = length (scoords s) /\
    forall i, i < length (scoords s) ->
      point s' i = blend (sdim s) (point s (length (scoords s) - 1 - i)) (point s i).
Proof.
  destruct (reverse_spec CSeq arr_size sdim seq_get seq_set good_a view_a w_a smeas
    a_size a_get a_set s (length (scoords s)) eq_refl) as (s' & E & G & (H1 & _ & H3) & V).
  exists s'. repeat (split; [assumption|]). intros i Hi. apply coord_ext. intros k Hk.
  fold (view_a s' i k). rewrite V, blend_ord. rewrite (proj2 (Nat.ltb_lt i _) Hi). reflexivity.
Qed.
Lemma seq_swap_spec s i j : i < length (scoords s) -> j < length (scoords s) ->
  exists s', seq_swap s i j = Ok s' /\ sdim s' = sdim s /\ smeas s' = smeas s /\
    length (scoords s') = length (scoords s) /\
    forall a, point s' a = blend (sdim s) (point s (tr i j a)) (point s a).
Proof.
  intros Hi Hj.
  destruct (swap_spec CSeq sdim seq_get seq_set good_a view_a w_a smeas
    a_get a_set s (length (scoords s)) i j eq_refl Hi Hj) as (s' & E & G & (H1 & _ & H3) & V).
  exists s'. repeat (split; [assumption|]). intros a. apply coord_ext. intros k Hk.
  fold (view_a s' a k). rewrite V, blend_ord. reflexivity.
Qed.
Lemma blend_twice d a b : blend d (blend d a b) (blend d b a) = a.
Proof. apply coord_ext; intros k _; rewrite !blend_ord; destruct (k <? Nat.min (Z.to_nat d) 3); reflexivity. Qed.

Lemma seq_closed_ring_spec s m : 0 < length (scoords s) -> length (scoords s) <= m -> (2 <= sdim s)%Z ->
  exists s', seq_create_closed_ring s m = Ok s' /\ length (scoords s') = m /\ sdim s' = Z.min 3 (sdim s) /\ smeas s' = 0%Z /\
    (forall i, i < length (scoords s) -> same_upto (sdim s) (point s' i) (point s i)) /\
    (forall i, length (scoords s) <= i < m -> same_upto (sdim s) (point s' i) (point s 0)).
Proof.
  intros Hn Hm Hd.
  destruct (create_closed_ring_spec CSeq arr_size sdim seq_get seq_set arr_create good_a view_a w_a smeas fits_a (Z.min 3) cmeas_a
    a_size a_get a_set a_create s (length (scoords s)) m eq_refl Hn Hm I Hd)
    as (s' & E & G & EV & EW & D2 & M2 & A & B).
  exists s'. repeat (split; [assumption|]). unfold vis, D, w_a in *. split; intros i Hi k K1 K2.
  - apply A; lia.
  - apply B; lia.
Qed.
Lemma seq_extend_spec s m : 0 < length (scoords s) -> length (scoords s) <= m -> (2 <= sdim s)%Z ->
  exists s', seq_extend s m = Ok s' /\ length (scoords s') = m /\ sdim s' = Z.min 3 (sdim s) /\ smeas s' = 0%Z /\
    (forall i, i < length (scoords s) -> same_upto (sdim s) (point s' i) (point s i)) /\
    (forall i, length (scoords s) <= i < m -> same_upto (sdim s) (point s' i) (point s (length (scoords s) - 1))).
Proof.
  intros Hn Hm Hd.
  destruct (extend_spec CSeq arr_size sdim seq_get seq_set arr_create good_a view_a w_a smeas fits_a (Z.min 3) cmeas_a
    a_size a_get a_set a_create s (length (scoords s)) m eq_refl Hn Hm I Hd)
    as (s' & E & G & EV & EW & D2 & M2 & A & B).
  exists s'. repeat (split; [assumption|]). unfold vis, D, w_a in *. split; intros i Hi k K1 K2.
  - apply A; lia.
  - apply B; lia.
Qed.
Definition ends_meet (s : CSeq) : bool :=
  feqb (cx (point s 0)) (cx (point s (length (scoords s) - 1))) &&
  feqb (cy (point s 0)) (cy (point s (length (scoords s) - 1))).
Lemma seq_is_ring_spec s : seq_is_ring s =
  Ok ((length (scoords s) =? 0) || ((3 <? length (scoords s)) && ends_meet s)).
Proof.
  unfold seq_is_ring. rewrite (is_ring_spec CSeq arr_size sdim seq_get good_a view_a w_a
    a_size a_get a_w s (length (scoords s)) eq_refl). reflexivity.
Qed.
Lemma seq_ensure_spec s : (2 <= sdim s)%Z ->
  exists s', seq_ensure_valid_ring s = Ok s' /\
    (length (scoords s) = 0 \/ (3 < length (scoords s) /\ ends_meet s = true) -> s' = s) /\
    (0 < length (scoords s) -> length (scoords s) <= 3 \/ ends_meet s = false ->
     let m := if length (scoords s) <=? 3 then 4 else length (scoords s) + 1 in
     length (scoords s') = m /\ sdim s' = Z.min 3 (sdim s) /\ smeas s' = 0%Z /\
     (forall i, i < length (scoords s) -> same_upto (sdim s) (point s' i) (point s i)) /\
     (forall i, length (scoords s) <= i < m -> same_upto (sdim s) (point s' i) (point s 0))).
Proof.
  intros Hd.
  destruct (ensure_valid_ring_spec CSeq arr_size sdim seq_get seq_set seq_copy arr_create good_a view_a w_a smeas fits_a (Z.min 3) cmeas_a
    a_size a_get a_set a_copy a_w a_create s (length (scoords s)) eq_refl Hd I I) as (s' & E & A & B).
  exists s'. split; [exact E|]. split; [exact A|]. intros Hn Hc m. destruct (B Hn Hc) as (G & _ & _ & D2 & M2 & P & Q).
  unfold vis, D, w_a in *.
  split; [exact G|]. split; [exact D2|]. split; [exact M2|]. split; intros i Hi k K1 K2; [apply P|apply Q]; lia.
Qed.
Lemma seq_scroll_spec s i ring : 0 < i -> (ring = true -> 1 < length (scoords s)) ->
  let last := if ring then length (scoords s) - 1 else length (scoords s) in
  exists s', seq_scroll_ring s i ring = Ok s' /\ sdim s' = sdim s /\ smeas s' = smeas s /\
    length (scoords s') = length (scoords s) /\
    (forall j, j < last -> point s' j = blend (sdim s) (point s ((i + j) mod last)) (point s j)) /\
    (ring = true -> point s' last = blend (sdim s) (point s (i mod last)) (point s last)).
Proof.
  intros Hi Hr last.
  destruct (scroll_ring_spec CSeq arr_size sdim seq_get seq_set seq_copy good_a view_a w_a smeas
    a_size a_get a_set a_copy s (length (scoords s)) i ring eq_refl Hi Hr) as (s' & E & G & (H1 & _ & H3) & V).
  exists s'. repeat (split; [assumption|]). fold last in V. split.
  - intros j Hj. apply coord_ext. intros k Hk. fold (view_a s' j k). rewrite V, blend_ord.
    rewrite (proj2 (Nat.ltb_lt j last) Hj). reflexivity.
  - intros ->. apply coord_ext. intros k Hk. fold (view_a s' last k). rewrite V, blend_ord.
    rewrite Nat.ltb_irrefl, Nat.eqb_refl. reflexivity.
Qed.
Lemma seq_index_of_spec c s : (Z.of_nat (length (scoords s)) <= 2147483648)%Z ->
  exists z, seq_index_of c s = Ok z /\
  ((z = (-1)%Z /\ forall i, i < length (scoords s) -> ~ pt_eq c (point s i)) \/
   (exists i, z = Z.of_nat i /\ i < length (scoords s) /\ pt_eq c (point s i) /\
      forall j, j < i -> ~ pt_eq c (point s j))).
Proof.
  intros Hn. destruct (index_of_spec CSeq arr_size sdim seq_get good_a view_a w_a
    a_size a_get a_w c s (length (scoords s)) eq_refl Hn) as (z & E & [[-> P]|(i & -> & Hi & X & Y & P)]).
  - exists (-1)%Z. split; [exact E|]. left. split; [reflexivity|exact P].
  - exists (Z.of_nat i). split; [exact E|]. right. exists i. split; [reflexivity|]. split; [assumption|]. split; [split; assumption|exact P].
Qed.
Lemma seq_is_equal_spec s1 s2 :
  exists b, seq_is_equal s1 s2 = Ok b /\
    (b = true <-> length (scoords s1) = length (scoords s2) /\
       forall i k, i < length (scoords s1) -> k < 3 -> (Z.of_nat k < Z.min (sdim s1) (sdim s2))%Z ->
         ford_eq (ord4 (point s1 i) k) (ord4 (point s2 i) k)).
Proof.
  destruct (is_equal_spec CSeq arr_size sdim seq_get good_a view_a w_a
    a_size a_get s1 s2 _ _ eq_refl eq_refl (or_introl eq_refl)) as (b & E & H).
  exists b. split; [exact E|]. rewrite H. unfold vis, D, w_a, view_a, same_ord, ford_eq. split; intros [L P]; split; auto; intros i k Hi Hk.
  - intros Hk'. destruct (P i k); auto; lia.
  - destruct (P i k); auto; lia.
Qed.
Lemma seq_min_index_spec s from to : from <= to < length (scoords s) -> (Z.of_nat (length (scoords s)) <= 2147483648)%Z ->
  Forall nn_xy (scoords s) ->
  exists r, seq_min_index_from_to s from to = Ok (Z.of_nat r) /\ from <= r <= to /\
    (forall j, from <= j <= to -> ~ pt_lt (point s j) (point s r)) /\
    (forall j, from <= j < r -> pt_lt (point s r) (point s j)).
Proof.
  intros H Hn F. apply (min_index_spec CSeq good_a seq_coord pt_of_a a_coord s (length (scoords s)) from to eq_refl H Hn).
  intros i Hi. rewrite Forall_forall in F. apply F. now apply nth_In.
Qed.
Lemma seq_min_coordinate_spec s : Forall nn_xy (scoords s) ->
  exists o, seq_min_coordinate s = Ok o /\
    match o with
    | None => scoords s = []
    | Some c => In c (scoords s) /\ forall p, In p (scoords s) -> ~ pt_lt p c
    end.
Proof.
  intros F. rewrite Forall_forall in F.
  destruct (min_coordinate_spec_seq CSeq arr_size good_a a_size seq_coord pt_of_a a_coord s (length (scoords s)) eq_refl) as (o & E & P).
  { intros i Hi. apply F. now apply nth_In. }
  exists o. split; [exact E|]. destruct o as [c|].
  - destruct P as ((i & Hi & ->) & P). split; [now apply nth_In|]. intros p Hp.
    destruct (In_nth _ _ coord_default Hp) as (j & Hj & <-). now apply P.
  - now apply length_zero_iff_nil.
Qed.

(** Too small a target: the copy runs past the end. *)
Lemma forN_panic {S} (P : nat -> S -> Prop) body n lo s k : P lo s -> lo <= k < lo + n ->
  (forall i s, lo <= i < k -> P i s -> exists s', body i s = Ok s' /\ P (Datatypes.S i) s') ->
  (forall s, P k s -> body k s = Panic) -> forN n lo s body = Panic.
Proof.
  revert lo s. induction n as [|n IH]; intros lo s H0 Hk A B; [lia|]. cbn [forN].
  destruct (Nat.eq_dec lo k) as [->|]; [now rewrite B|].
  destruct (A lo s) as (s' & E & P'); [lia|assumption|]. rewrite E. cbn [bind].
  apply IH; auto; [lia|]. intros i s0 Hi. apply A. lia.
Qed.
Lemma seq_closed_ring_panics s m : m < length (scoords s) -> (2 <= sdim s)%Z -> seq_create_closed_ring s m = Panic.
Proof.
  intros Hm Hd. unfold seq_create_closed_ring, sq_create_closed_ring.
  destruct (a_create s (length (scoords s)) m eq_refl I Hd) as (s0 & E & G & W & V & D2 & _). rewrite E. cbn [bind].
  unfold arr_size at 1. cbn [bind]. unfold seq_size. unfold sq_copy.
  rewrite (forN_panic (fun _ s' => length (scoords s') = m /\ hdr CSeq sdim w_a smeas s0 s') _ _ _ _ m); [reflexivity|split; [exact G|apply hdr_refl]|lia| |].
  - intros i s1 Hi (L & H1).
    destruct (copy_coord_spec CSeq sdim seq_get seq_set good_a view_a w_a smeas a_get a_set s (length (scoords s)) (0 + i) s1 m (0 + i) eq_refl)
      as (s2 & E2 & G2 & H2 & _); auto; try lia.
    exists s2. split; [exact E2|]. split; [exact G2|]. eapply hdr_trans; eauto.
  - intros s1 (L & H1). destruct H1 as (Hd1 & _). unfold sq_copy_coord.
    destruct (Z.to_nat (Z.min (sdim s) (sdim s1))) as [|q] eqn:Eq; [lia|]. cbn [forN].
    rewrite (seq_get_spec s (0 + m) 0) by lia. cbn [bind]. unfold seq_set at 1. rewrite idx_panic by lia. reflexivity.
Qed.

(** ** The packed instance *)
Definition view_p (p : Packed) (i k : nat) : f64 := if k <? Z.to_nat (pdim p) then flat p i k else fnan.
Definition w_p (p : Packed) : nat := Z.to_nat (pdim p).
Definition fits_p (m : nat) (p : Packed) : Prop := (Z.of_nat m * pdim p <= usize_max)%Z.

Lemma usize_wrap_small z : (0 <= z <= usize_max)%Z -> usize_wrap z = z.
Proof. intros H. unfold usize_wrap. apply Z.mod_small. unfold usize_max in H. lia. Qed.
Lemma usize_chk_ok z : (0 <= z <= usize_max)%Z -> usize_chk z = Ok z.
Proof. intros H. unfold usize_chk. destruct (Z.leb_spec 0 z), (Z.leb_spec z usize_max); cbn; reflexivity || lia. Qed.
Lemma packed_off n d i k : i < n -> k < d -> i * d + k < n * d.
Proof. intros. assert (S i * d <= n * d) by (apply Nat.mul_le_mono_r; lia). cbn in *. lia. Qed.
Lemma pidx_ok p n i k : packed_ok p n -> i < n -> k < Z.to_nat (pdim p) ->
  pidx (pdim p) i (Z.of_nat k) = Ok (i * Z.to_nat (pdim p) + k) /\ i * Z.to_nat (pdim p) + k < length (pcoords p).
Proof.
  intros ((Dl & Dh) & L & B) Hi Hk. pose proof (packed_off n (Z.to_nat (pdim p)) i k Hi Hk) as O.
  assert (i32_max < usize_max)%Z by reflexivity.
  unfold pidx. rewrite !usize_wrap_small by lia.
  assert (Z.of_nat (i * Z.to_nat (pdim p) + k) = (Z.of_nat i * pdim p + Z.of_nat k)%Z) as EZ by lia.
  assert (0 <= Z.of_nat i * pdim p)%Z by lia.
  rewrite usize_chk_ok by lia. cbn [bind]. rewrite usize_chk_ok by lia. cbn [bind].
  split; [f_equal; lia|lia].
Qed.
Lemma p_size p n : packed_ok p n -> packed_size p = Ok n.
Proof.
  intros ((Dl & Dh) & L & B). unfold packed_size. assert (i32_max < usize_max)%Z by reflexivity.
  rewrite !usize_wrap_small by lia. rewrite (proj2 (Z.eqb_neq _ _)) by lia. f_equal.
  rewrite L, Nat2Z.inj_mul, Z2Nat.id by lia. rewrite Z.div_mul by lia. apply Nat2Z.id.
Qed.
Lemma packed_get_spec p n i k : packed_ok p n -> i < n -> k < Z.to_nat (pdim p) ->
  packed_get p i (Z.of_nat k) = Ok (flat p i k).
Proof.
  intros P Hi Hk. destruct (pidx_ok p n i k P Hi Hk) as [E L]. unfold packed_get. rewrite E. cbn [bind].
  now apply idx_nth.
Qed.
Lemma p_get p n i k : packed_ok p n -> i < n -> k < Nat.max 2 (D Packed pdim p) ->
  packed_get p i (Z.of_nat k) = Ok (if k <? w_p p then view_p p i k else fnan).
Proof.
  intros P Hi Hk. assert (k < Z.to_nat (pdim p)) as Hk' by (destruct P as ((Dl & Dh) & _); unfold D in Hk; lia).
  unfold w_p, view_p. rewrite (proj2 (Nat.ltb_lt _ _) Hk'). now apply packed_get_spec with n.
Qed.
Lemma off_inj d i k i' k' : k < d -> k' < d -> i * d + k = i' * d + k' -> i = i' /\ k = k'.
Proof.
  intros Hk Hk' E.
  assert (i = i') by (rewrite (Nat.div_unique (i * d + k) d i k), (Nat.div_unique (i' * d + k') d i' k'); auto; lia).
  subst. split; [reflexivity|lia].
Qed.
Lemma packed_set_spec p n i k v : packed_ok p n -> i < n -> k < Z.to_nat (pdim p) ->
  exists p', packed_set p i (Z.of_nat k) v = Ok p' /\ packed_ok p' n /\ pdim p' = pdim p /\ pmeas p' = pmeas p /\
    forall i' k', k' < Z.to_nat (pdim p) -> flat p' i' k' = if (i' =? i) && (k' =? k) then v else flat p i' k'.
Proof.
  intros P Hi Hk. destruct (pidx_ok p n i k P Hi Hk) as [E L]. unfold packed_set. rewrite E. cbn [bind].
  destruct (upd_some (pcoords p) _ v L) as (cs & E'). rewrite E'. cbn [bind]. eexists. split; [reflexivity|].
  destruct (upd_spec _ _ _ _ E') as (L' & _ & N). destruct P as (B & L0 & M).
  split. { split; [exact B|]. cbn [pcoords pdim]. rewrite L'. split; assumption. }
  split; [reflexivity|]. split; [reflexivity|]. intros i' k' Hk'. unfold flat. cbn [pcoords pdim]. rewrite N.
  destruct (Nat.eqb_spec i' i) as [->|Hi']; cbn [andb].
  - destruct (Nat.eqb_spec k' k) as [->|Hk'']; [now rewrite Nat.eqb_refl|].
    rewrite (proj2 (Nat.eqb_neq _ _)) by lia. reflexivity.
  - rewrite (proj2 (Nat.eqb_neq _ _)); [reflexivity|]. intros Q. apply off_inj in Q; [|assumption|assumption]. now apply Hi'.
Qed.
Lemma p_set p n i k v : packed_ok p n -> i < n -> k < D Packed pdim p ->
  exists p', packed_set p i (Z.of_nat k) v = Ok p' /\ packed_ok p' n /\ hdr Packed pdim w_p pmeas p p' /\
    forall i' k', view_p p' i' k' = if (i' =? i) && (k' =? k) && (k <? w_p p) then v else view_p p i' k'.
Proof.
  intros P Hi Hk. destruct (packed_set_spec p n i k v P Hi Hk) as (p' & E & P' & Ed & Em & V).
  exists p'. split; [exact E|]. split; [exact P'|]. split; [unfold hdr, w_p; now rewrite Ed|].
  intros i' k'. unfold view_p, w_p. rewrite Ed. unfold D in Hk. rewrite (proj2 (Nat.ltb_lt _ _) Hk), andb_true_r.
  destruct (Nat.ltb_spec k' (Z.to_nat (pdim p))) as [Hk'|Hk'].
  - now apply V.
  - rewrite (proj2 (Nat.eqb_neq k' k)) by lia. now rewrite andb_false_r.
Qed.
Lemma packed_new_id raw d m : packed_new raw d m = Ok (mkPacked d m raw).
Proof. unfold packed_new. now rewrite fill_copy. Qed.
Lemma packed_copy_id p : packed_copy p = Ok p.
Proof. unfold packed_copy. rewrite packed_new_id. now destruct p. Qed.
Lemma p_copy p n : packed_ok p n -> packed_copy p = Ok p.
Proof. intros _. apply packed_copy_id. Qed.
Lemma p_w p n : packed_ok p n -> 2 <= w_p p.
Proof. intros ((Dl & Dh) & _). unfold w_p. lia. Qed.
Definition cdim_p (d : Z) : Z := d.
Definition cmeas_p (d : Z) : Z := Z.max 0 (d - 3).
Lemma p_create p n m : packed_ok p n -> fits_p m p -> (2 <= pdim p)%Z ->
  exists p', packed_create m (pdim p) = Ok p' /\ packed_ok p' m /\ w_p p' = w_p p /\
    vis Packed pdim w_p p' = vis Packed pdim w_p p /\ pdim p' = pdim p /\ pmeas p' = Z.max 0 (pdim p - 3).
Proof.
  intros ((Dl & Dh) & _) F H. unfold fits_p in F. assert (i32_max < usize_max)%Z by reflexivity.
  unfold packed_create, i32_chk.
  rewrite (proj2 (Z.leb_le i32_min (pdim p - 3))) by (unfold i32_min; lia).
  rewrite (proj2 (Z.leb_le (pdim p - 3) i32_max)) by lia. cbn [andb bind].
  unfold packed_new_size. rewrite usize_wrap_small by lia. rewrite usize_chk_ok by lia. cbn [bind].
  eexists. split; [reflexivity|]. split; [|split; [reflexivity|split; [reflexivity|split; reflexivity]]].
  split; [split; assumption|]. cbn [pcoords pdim]. rewrite repeat_length.
  split; [|lia]. rewrite <- (Z2Nat.id (pdim p)) at 1 by lia. rewrite <- Nat2Z.inj_mul. apply Nat2Z.id.
Qed.
Definition pt_of_p (p : Packed) (i : nat) : Coordinate :=
  mkC (flat p i 0) (flat p i 1)
    (if ((pdim p =? 3) && (pmeas p =? 0) || (pdim p =? 4))%Z then flat p i 2 else fnan)
    (if ((pdim p =? 3) && (pmeas p =? 1))%Z then flat p i 2 else if (pdim p =? 4)%Z then flat p i 3 else fnan).
Lemma p_coord p n i : packed_ok p n -> i < n -> packed_coord p i = Ok (pt_of_p p i).
Proof.
  intros P Hi. destruct P as (DB & P). unfold packed_coord, pt_of_p.
  change 0%Z with (Z.of_nat 0) at 1. change 1%Z with (Z.of_nat 1) at 1.
  rewrite (packed_get_spec p n i 0), (packed_get_spec p n i 1) by (try split; auto; lia). cbn [bind].
  destruct (Z.eqb_spec (pdim p) 2) as [E2|E2]; cbn [andb].
  { rewrite (proj2 (Z.eqb_neq (pdim p) 3)), (proj2 (Z.eqb_neq (pdim p) 4)) by lia. cbn [andb orb].
    destruct (pmeas p =? 0)%Z; reflexivity. }
  destruct (Z.eqb_spec (pdim p) 3) as [E3|E3]; cbn [andb].
  { rewrite (proj2 (Z.eqb_neq (pdim p) 4)) by lia. change 2%Z with (Z.of_nat 2).
    rewrite (packed_get_spec p n i 2) by (try split; auto; lia). cbn [bind].
    destruct (Z.eqb_spec (pmeas p) 0) as [->|]; [reflexivity|]. cbn [orb]. destruct (pmeas p =? 1)%Z; reflexivity. }
  destruct (Z.eqb_spec (pdim p) 4) as [E4|E4]; cbn [orb]; [|reflexivity].
  change 2%Z with (Z.of_nat 2). change 3%Z with (Z.of_nat 3).
  rewrite (packed_get_spec p n i 2), (packed_get_spec p n i 3) by (try split; auto; lia). reflexivity.
Qed.
Lemma packed_ext p p' n : packed_ok p n -> packed_ok p' n -> pdim p = pdim p' -> pmeas p = pmeas p' ->
  (forall i k, i < n -> k < Z.to_nat (pdim p) -> flat p i k = flat p' i k) -> p = p'.
Proof.
  intros (B & L & _) (_ & L' & _) Ed Em V. destruct p as [d m l], p' as [d' m' l']. cbn in *. subst d' m'. f_equal.
  apply nth_ext_eq with fnan; [congruence|]. intros j Hj.
  pose proof (Nat.div_mod j (Z.to_nat d) ltac:(lia)) as DM. pose proof (Nat.mod_upper_bound j (Z.to_nat d) ltac:(lia)) as MB.
  assert (j / Z.to_nat d < n) by (apply Nat.div_lt_upper_bound; lia).
  specialize (V (j / Z.to_nat d) (j mod Z.to_nat d) ltac:(lia) MB). unfold flat in V. cbn in V.
  now replace (j / Z.to_nat d * Z.to_nat d + j mod Z.to_nat d) with j in V by lia.
Qed.
Lemma vis_p p : vis Packed pdim w_p p = Z.to_nat (pdim p).
Proof. unfold vis, D, w_p. lia. Qed.
Lemma packed_reverse_spec p n : packed_ok p n ->
  exists p', packed_reverse p = Ok p' /\ packed_ok p' n /\ pdim p' = pdim p /\ pmeas p' = pmeas p /\
    forall i k, i < n -> k < Z.to_nat (pdim p) -> flat p' i k = flat p (n - 1 - i) k.
Proof.
  intros G. destruct (reverse_spec Packed packed_size pdim packed_get packed_set packed_ok view_p w_p pmeas
    p_size p_get p_set p n G) as (p' & E & G' & (H1 & _ & H3) & V).
  exists p'. repeat (split; [assumption|]). intros i k Hi Hk. specialize (V i k). unfold view_p in V.
  rewrite H1, vis_p, (proj2 (Nat.ltb_lt _ _) Hi), (proj2 (Nat.ltb_lt _ _) Hk) in V. exact V.
Qed.
Lemma packed_scroll_spec p n i ring : packed_ok p n -> 0 < i -> (ring = true -> 1 < n) ->
  let last := if ring then n - 1 else n in
  exists p', packed_scroll_ring p i ring = Ok p' /\ packed_ok p' n /\ pdim p' = pdim p /\ pmeas p' = pmeas p /\
    (forall j k, j < last -> k < Z.to_nat (pdim p) -> flat p' j k = flat p ((i + j) mod last) k) /\
    (ring = true -> forall k, k < Z.to_nat (pdim p) -> flat p' last k = flat p (i mod last) k).
Proof.
  intros G Hi Hr last. destruct (scroll_ring_spec Packed packed_size pdim packed_get packed_set packed_copy packed_ok view_p w_p pmeas
    p_size p_get p_set p_copy p n i ring G Hi Hr) as (p' & E & G' & (H1 & _ & H3) & V).
  exists p'. repeat (split; [assumption|]). fold last in V. split.
  - intros j k Hj Hk. specialize (V j k). unfold view_p in V.
    rewrite H1, vis_p, (proj2 (Nat.ltb_lt _ _) Hj), (proj2 (Nat.ltb_lt _ _) Hk) in V. exact V.
  - intros -> k Hk. specialize (V last k). unfold view_p in V.
    rewrite H1, vis_p, Nat.ltb_irrefl, Nat.eqb_refl, (proj2 (Nat.ltb_lt _ _) Hk) in V. exact V.
Qed.

Lemma packed_is_ring_spec p n : packed_ok p n -> packed_is_ring p =
  Ok ((n =? 0) || ((3 <? n) && (feqb (flat p 0 0) (flat p (n - 1) 0) && feqb (flat p 0 1) (flat p (n - 1) 1)))).
Proof.
  intros G. unfold packed_is_ring. rewrite (is_ring_spec Packed packed_size pdim packed_get packed_ok view_p w_p
    p_size p_get p_w p n G). unfold view_p. pose proof (p_w p n G) as W. unfold w_p in W.
  rewrite (proj2 (Nat.ltb_lt 0 _)), (proj2 (Nat.ltb_lt 1 _)) by lia. reflexivity.
Qed.
Lemma packed_ensure_spec p n : packed_ok p n -> fits_p 4 p -> fits_p (n + 1) p ->
  exists p', packed_ensure_valid_ring p = Ok p' /\
    let closed := feqb (flat p 0 0) (flat p (n - 1) 0) && feqb (flat p 0 1) (flat p (n - 1) 1) in
    (n = 0 \/ (3 < n /\ closed = true) -> p' = p) /\
    (0 < n -> n <= 3 \/ closed = false ->
     let m := if n <=? 3 then 4 else n + 1 in
     packed_ok p' m /\ pdim p' = pdim p /\ pmeas p' = Z.max 0 (pdim p - 3) /\
     (forall i k, i < n -> k < Z.to_nat (pdim p) -> flat p' i k = flat p i k) /\
     (forall i k, n <= i < m -> k < Z.to_nat (pdim p) -> flat p' i k = flat p 0 k)).
Proof.
  intros G F4 Fn. pose proof (p_w p n G) as W. unfold w_p in W.
  destruct (ensure_valid_ring_spec Packed packed_size pdim packed_get packed_set packed_copy packed_create packed_ok view_p w_p pmeas fits_p cdim_p cmeas_p
    p_size p_get p_set p_copy p_w p_create p n G ltac:(lia) F4 Fn) as (p' & E & A & B).
  exists p'. split; [exact E|]. unfold view_p in A, B.
  rewrite (proj2 (Nat.ltb_lt 0 (Z.to_nat (pdim p)))), (proj2 (Nat.ltb_lt 1 (Z.to_nat (pdim p)))) in A by lia.
  split; [exact A|]. intros Hn Hc m.
  rewrite (proj2 (Nat.ltb_lt 0 (Z.to_nat (pdim p)))), (proj2 (Nat.ltb_lt 1 (Z.to_nat (pdim p)))) in B by lia.
  destruct (B Hn Hc) as (G' & _ & _ & D2 & M2 & P & Q). unfold cdim_p in D2.
  split; [exact G'|]. split; [exact D2|]. split; [exact M2|]. rewrite vis_p in P, Q. rewrite D2 in P, Q.
  split; intros i k Hi Hk; [specialize (P i k Hi Hk)|specialize (Q i k Hi Hk)];
    rewrite (proj2 (Nat.ltb_lt _ _) Hk) in *; assumption.
Qed.
Lemma packed_index_of_spec c p n : packed_ok p n -> (Z.of_nat n <= 2147483648)%Z ->
  exists z, packed_index_of c p = Ok z /\
  ((z = (-1)%Z /\ forall i, i < n -> ~ (eqf (cx c) (flat p i 0) /\ eqf (cy c) (flat p i 1))) \/
   (exists i, z = Z.of_nat i /\ i < n /\ (eqf (cx c) (flat p i 0) /\ eqf (cy c) (flat p i 1)) /\
      forall j, j < i -> ~ (eqf (cx c) (flat p j 0) /\ eqf (cy c) (flat p j 1)))).
Proof.
  intros G Hn. pose proof (p_w p n G) as W. unfold w_p in W.
  destruct (index_of_spec Packed packed_size pdim packed_get packed_ok view_p w_p
    p_size p_get p_w c p n G Hn) as (z & E & R). exists z. split; [exact E|]. unfold view_p in R.
  rewrite (proj2 (Nat.ltb_lt 0 (Z.to_nat (pdim p)))), (proj2 (Nat.ltb_lt 1 (Z.to_nat (pdim p)))) in R by lia.
  destruct R as [R|(i & -> & Hi & X & Y & P)]; [left; exact R|right]. exists i. auto.
Qed.

(** ** Packed against array *)
Lemma sc_len p s : same_content p s -> packed_ok p (length (scoords s)).
Proof. now intros (_ & _ & _ & H & _). Qed.
Lemma sc_get p s i k : same_content p s -> i < length (scoords s) -> (Z.of_nat k < pdim p)%Z ->
  packed_get p i (Z.of_nat k) = seq_get s i (Z.of_nat k).
Proof.
  intros (Ed & _ & _ & G & V) Hi Hk. rewrite (packed_get_spec p _ i k G Hi) by lia.
  rewrite seq_get_spec by assumption. rewrite (proj2 (Nat.ltb_lt k 3)) by lia. f_equal. now apply V.
Qed.
Lemma sc_intro p s s' p' n : same_content p s -> length (scoords s') = n -> packed_ok p' n -> pdim p' = pdim p -> pmeas p' = pmeas p ->
  sdim s' = sdim s ->
  (forall i k, i < n -> (Z.of_nat k < pdim p)%Z -> flat p' i k = ord4 (point s' i) k) -> same_content p' s'.
Proof.
  intros (Ed & Em & Es & G & V) L G' Pd Pm Sd V'. unfold same_content. rewrite Pd, Pm, Sd, L.
  split; [exact Ed|]. split; [exact Em|]. split; [exact Es|]. split; [exact G'|]. exact V'.
Qed.
Lemma sc_set p s i k v : same_content p s -> i < length (scoords s) -> (Z.of_nat k < pdim p)%Z ->
  exists p' s', packed_set p i (Z.of_nat k) v = Ok p' /\ seq_set s i (Z.of_nat k) v = Ok s' /\ same_content p' s' /\
    length (scoords s') = length (scoords s) /\ pdim p' = pdim p.
Proof.
  intros H Hi Hk. pose proof H as (Ed & Em & Es & G & V).
  destruct (packed_set_spec p _ i k v G Hi ltac:(lia)) as (p' & E & G' & Pd & Pm & F).
  destruct (seq_set_spec s i k v Hi) as (s' & E' & L & Sd & Sm & F').
  exists p', s'. split; [exact E|]. split; [exact E'|]. split; [|split; assumption].
  apply (sc_intro p s s' p' (length (scoords s))); auto.
  intros i' k' Hi' Hk'. rewrite F, F' by lia. rewrite (proj2 (Nat.ltb_lt k 3)) by lia. rewrite andb_true_r.
  destruct ((i' =? i) && (k' =? k)); [reflexivity|]. now apply V.
Qed.
Lemma sc_assigns h : forall p s, same_content p s ->
  Forall (fun '(i, k, _) => i < length (scoords s) /\ (Z.of_nat k < pdim p)%Z) h ->
  exists p' s', assigns_p p h = Ok p' /\ assigns_s s h = Ok s' /\ same_content p' s'.
Proof.
  induction h as [|[[i k] v] h IH]; intros p s H F; cbn [assigns_p assigns_s].
  - exists p, s. auto.
  - inversion_clear F as [|? ? HH F']. cbn in HH. destruct HH as [Hi Hk].
    destruct (sc_set p s i k v H Hi Hk) as (p' & s' & E & E' & H' & L & Pd). rewrite E, E'. cbn [bind].
    apply IH; [assumption|]. now rewrite L, Pd.
Qed.
Lemma sc_reverse p s : same_content p s ->
  exists p' s', packed_reverse p = Ok p' /\ seq_reverse s = Ok s' /\ same_content p' s'.
Proof.
  intros H. pose proof H as (Ed & Em & Es & G & V).
  destruct (packed_reverse_spec p _ G) as (p' & E & G' & Pd & Pm & F).
  destruct (seq_reverse_spec s) as (s' & E' & Sd & Sm & L & F').
  exists p', s'. split; [exact E|]. split; [exact E'|].
  apply (sc_intro p s s' p' (length (scoords s))); auto.
  intros i k Hi Hk. rewrite F, F', blend_ord by lia. rewrite Es, (proj2 (Nat.ltb_lt k _)) by lia. apply V; lia.
Qed.
Lemma sc_scroll p s i ring : same_content p s -> (ring = true -> 1 < length (scoords s)) ->
  exists p' s', packed_scroll_ring p i ring = Ok p' /\ seq_scroll_ring s i ring = Ok s' /\ same_content p' s'.
Proof.
  intros H Hr. pose proof H as (Ed & Em & Es & G & V).
  destruct (Nat.eq_dec i 0) as [->|Hi]. { exists p, s. auto. }
  destruct (packed_scroll_spec p _ i ring G ltac:(lia) Hr) as (p' & E & G' & Pd & Pm & F & F2).
  destruct (seq_scroll_spec s i ring ltac:(lia) Hr) as (s' & E' & Sd & Sm & L & F' & F2').
  exists p', s'. split; [exact E|]. split; [exact E'|].
  apply (sc_intro p s s' p' (length (scoords s))); auto.
  intros j k Hj Hk.
  destruct (Nat.lt_ge_cases j (if ring then length (scoords s) - 1 else length (scoords s))) as [Hl|Hl].
  - rewrite F, F', blend_ord by (auto; lia). rewrite Es, (proj2 (Nat.ltb_lt k _)) by lia. apply V; [|lia].
    pose proof (Nat.mod_upper_bound (i + j) (if ring then length (scoords s) - 1 else length (scoords s)) ltac:(lia)).
    destruct ring; lia.
  - destruct ring; [|lia]. specialize (Hr eq_refl). replace j with (length (scoords s) - 1) by lia.
    rewrite F2, F2', blend_ord by (auto; lia). rewrite Es, (proj2 (Nat.ltb_lt k _)) by lia. apply V; [|lia].
    pose proof (Nat.mod_upper_bound i (length (scoords s) - 1) ltac:(lia)). lia.
Qed.
Lemma sc_xy p s i : same_content p s -> i < length (scoords s) ->
  flat p i 0 = cx (point s i) /\ flat p i 1 = cy (point s i).
Proof. intros (Ed & Em & Es & G & V) Hi. split; [apply (V i 0)|apply (V i 1)]; auto; lia. Qed.
Lemma sc_ends p s : same_content p s -> 0 < length (scoords s) ->
  feqb (flat p 0 0) (flat p (length (scoords s) - 1) 0) && feqb (flat p 0 1) (flat p (length (scoords s) - 1) 1) = ends_meet s.
Proof.
  intros H Hn. unfold ends_meet. destruct (sc_xy p s 0 H Hn) as [-> ->].
  destruct (sc_xy p s (length (scoords s) - 1) H ltac:(lia)) as [-> ->]. reflexivity.
Qed.
Lemma sc_is_ring p s : same_content p s -> packed_is_ring p = seq_is_ring s.
Proof.
  intros H. rewrite (packed_is_ring_spec p _ (sc_len _ _ H)), seq_is_ring_spec. f_equal.
  destruct (Nat.eqb_spec (length (scoords s)) 0); [reflexivity|]. rewrite (sc_ends p s H) by lia. reflexivity.
Qed.
Lemma sc_ensure p s : same_content p s -> (3 * (Z.of_nat (length (scoords s)) + 4) <= usize_max)%Z ->
  exists p' s', packed_ensure_valid_ring p = Ok p' /\ seq_ensure_valid_ring s = Ok s' /\ same_content p' s'.
Proof.
  intros H B. pose proof H as (Ed & Em & Es & G & V).
  destruct (packed_ensure_spec p _ G) as (p' & E & F1 & F2).
  { unfold fits_p. destruct Ed as [-> | ->]; lia. } { unfold fits_p. destruct Ed as [-> | ->]; lia. }
  destruct (seq_ensure_spec s ltac:(lia)) as (s' & E' & F1' & F2').
  exists p', s'. split; [exact E|]. split; [exact E'|].
  set (n := length (scoords s)) in *.
  destruct (Nat.eq_dec n 0) as [Hn|Hn]. { rewrite F1, F1' by auto. exact H. }
  pose proof (sc_ends p s H ltac:(fold n; lia)) as EE. fold n in EE. rewrite EE in F1, F2.
  assert ((3 < n /\ ends_meet s = true) \/ (n <= 3 \/ ends_meet s = false)) as [C|C].
  { destruct (Nat.le_gt_cases n 3); [auto|]. destruct (ends_meet s); auto. }
  { rewrite F1, F1' by auto. exact H. }
  destruct (F2 ltac:(lia) C) as (G' & Pd & Pm & A1 & A2). destruct (F2' ltac:(lia) C) as (L' & Sd & Sm & B1 & B2).
  apply (sc_intro p s s' p' (if n <=? 3 then 4 else n + 1)); auto.
  - rewrite Pm. lia.
  - rewrite Sd. lia.
  - intros i k Hi Hk. destruct (Nat.lt_ge_cases i n) as [Hl|Hl].
    + rewrite A1 by lia. rewrite (B1 i Hl k) by lia. now apply V.
    + rewrite A2 by lia. rewrite (B2 i) by lia. apply V; lia.
Qed.
Lemma sc_index_of p s c : same_content p s -> (Z.of_nat (length (scoords s)) <= 2147483648)%Z ->
  packed_index_of c p = seq_index_of c s.
Proof.
  intros H Hn. set (n := length (scoords s)) in *.
  destruct (packed_index_of_spec c p n (sc_len _ _ H) Hn) as (z & -> & R).
  destruct (seq_index_of_spec c s Hn) as (z' & -> & R'). f_equal.
  assert (forall i, i < n -> (eqf (cx c) (flat p i 0) /\ eqf (cy c) (flat p i 1)) <-> pt_eq c (point s i)) as EQ.
  { intros i Hi. destruct (sc_xy p s i H Hi) as [-> ->]. reflexivity. }
  destruct R as [[-> R]|(i & -> & Hi & X & P)], R' as [[-> R']|(i' & -> & Hi' & X' & P')]; [reflexivity| | |].
  - exfalso. apply (R i' Hi'). now apply EQ.
  - exfalso. apply (R' i Hi). now apply EQ.
  - f_equal. destruct (Nat.lt_trichotomy i i') as [L|[L|L]]; [|assumption|].
    + exfalso. apply (P' i L). now apply EQ.
    + exfalso. apply (P i' L). now apply EQ.
Qed.
Lemma sc_to_array p s : same_content p s ->
  exists l, packed_to_array p = Ok l /\ length l = length (scoords s) /\
    forall i, i < length (scoords s) -> nth i l coord_default = blend (sdim s) (point s i) (new_xy f0 f0).
Proof.
  intros H. pose proof H as (Ed & Em & Es & G & V). set (n := length (scoords s)) in *.
  unfold packed_to_array. rewrite (p_size p n G). cbn [bind].
  destruct (forN_ind (fun i cs => length cs = n /\ forall j, j < i -> nth j cs coord_default = pt_of_p p j)
    (fun i cs => c <- packed_coord p i ;; upd cs i c) n 0 (repeat coord_default n)) as (l & E & L & P).
  - split; [apply repeat_length|]. intros; lia.
  - intros i cs Hi (L & P). rewrite (p_coord p n i) by (auto; lia). cbn [bind].
    destruct (upd_some cs i (pt_of_p p i)) as (cs' & E); [lia|]. exists cs'. split; [exact E|].
    destruct (upd_spec _ _ _ _ E) as (L' & _ & N). split; [lia|]. intros j Hj. rewrite N.
    destruct (Nat.eqb_spec j i) as [->|]; [reflexivity|]. apply P. lia.
  - exists l. split; [exact E|]. split; [exact L|]. intros i Hi. rewrite P by lia. unfold pt_of_p. rewrite Em.
    destruct (sc_xy p s i H Hi) as [-> ->]. rewrite Es. unfold blend, new_xy.
    destruct Ed as [Ed|Ed]; rewrite Ed; cbn; [reflexivity|]. f_equal. apply (V i 2); auto; lia.
Qed.
Lemma packed_env_loop_spec p n a e : packed_ok p n -> a <= n -> forall fuel, n - a <= fuel ->
  packed_env_loop fuel (pcoords p) (pdim p) (Z.of_nat (a * Z.to_nat (pdim p))) e =
  Some (Ok (fold_left (fun e i => expand_to_include_xy e (flat p i 0) (flat p i 1)) (seq a (n - a)) e)).
Proof.
  intros G Ha fuel. pose proof G as ((Dl & Dh) & L & B).
  remember (n - a) as r eqn:Er. revert a e fuel Ha Er. induction r as [|r IH]; intros a e fuel Ha Er Hf.
  - assert (a = n) by lia. subst a. destruct fuel; cbn [packed_env_loop]; rewrite (proj2 (Z.ltb_ge _ _)) by lia; reflexivity.
  - destruct fuel as [|fuel]; [lia|]. cbn [packed_env_loop].
    pose proof (packed_off n (Z.to_nat (pdim p)) a 1 ltac:(lia) ltac:(lia)) as O.
    rewrite (proj2 (Z.ltb_lt (Z.of_nat (a * Z.to_nat (pdim p))) _)) by lia.
    rewrite (proj2 (Z.ltb_lt (Z.of_nat (a * Z.to_nat (pdim p)) + 1) _)) by lia. cbv zeta.
    rewrite Nat2Z.id. assert (forall q, Z.to_nat (Z.of_nat q + 1) = q + 1) as EQ by (intros; lia). rewrite EQ.
    rewrite (idx_nth _ (a * Z.to_nat (pdim p)) fnan), (idx_nth _ (a * Z.to_nat (pdim p) + 1) fnan) by lia. cbn [bind].
    assert (S a * Z.to_nat (pdim p) <= n * Z.to_nat (pdim p)) by (apply Nat.mul_le_mono_r; lia).
    assert (Z.of_nat (a * Z.to_nat (pdim p)) + pdim p = Z.of_nat (S a * Z.to_nat (pdim p)))%Z as -> by lia.
    rewrite usize_chk_ok. 2:{ split; [apply Nat2Z.is_nonneg|]. apply Z.le_trans with (2 := B). rewrite L. now apply Nat2Z.inj_le. }
    rewrite (IH (S a)) by lia. cbn [seq fold_left].
    assert (flat p a 0 = nth (a * Z.to_nat (pdim p)) (pcoords p) fnan) as -> by (unfold flat; now rewrite Nat.add_0_r).
    reflexivity.
Qed.
Lemma packed_expand_spec p n e : packed_ok p n -> packed_expand_envelope p e =
  Some (Ok (fold_left (fun e i => expand_to_include_xy e (flat p i 0) (flat p i 1)) (seq 0 n) e)).
Proof.
  intros G. pose proof G as ((Dl & Dh) & L & B). unfold packed_expand_envelope.
  rewrite usize_wrap_small by (unfold i32_max, usize_max in *; lia).
  change 0%Z with (Z.of_nat (0 * Z.to_nat (pdim p))). rewrite (packed_env_loop_spec p n 0 e G).
  - now rewrite Nat.sub_0_r.
  - lia.
  - rewrite L, Nat.sub_0_r. rewrite <- (Nat.mul_1_r n) at 1. apply Nat.mul_le_mono_l. lia.
Qed.
Lemma fold_points (l : list Coordinate) (f : Envelope -> Coordinate -> Envelope) e :
  fold_left f l e = fold_left (fun e i => f e (nth i l coord_default)) (seq 0 (length l)) e.
Proof.
  revert e. induction l as [|c l IH]; intros e; [reflexivity|]. cbn [length seq fold_left nth].
  rewrite IH. rewrite <- seq_shift. generalize (f e c). generalize (seq 0 (length l)).
  induction l0 as [|i l0 IHl]; intros e0; [reflexivity|]. cbn [map fold_left nth]. apply IHl.
Qed.
Lemma sc_expand p s e : same_content p s -> packed_expand_envelope p e = Some (Ok (seq_expand_envelope s e)).
Proof.
  intros H. rewrite (packed_expand_spec p _ e (sc_len _ _ H)). unfold seq_expand_envelope. rewrite fold_points.
  do 2 f_equal. assert (forall i, In i (seq 0 (length (scoords s))) -> i < length (scoords s)) as IN.
  { intros i Hi. apply in_seq in Hi. lia. }
  revert e. induction (seq 0 (length (scoords s))) as [|i l IH]; intros e; [reflexivity|]. cbn [fold_left].
  unfold expand_to_include_coordinate at 2. destruct (sc_xy p s i H) as [-> ->]; [apply IN; now left|].
  apply IH. intros j Hj. apply IN. now right.
Qed.
Lemma sc_min_index p s from to : same_content p s -> from <= to < length (scoords s) ->
  (Z.of_nat (length (scoords s)) <= 2147483648)%Z -> Forall nn_xy (scoords s) ->
  sq_min_index_from_to Packed packed_coord p from to = seq_min_index_from_to s from to.
Proof.
  intros H Hft Hn F. rewrite Forall_forall in F.
  assert (forall i, i < length (scoords s) -> nn_xy (point s i)) as NS by (intros; apply F; now apply nth_In).
  assert (forall i, i < length (scoords s) -> cx (pt_of_p p i) = cx (point s i) /\ cy (pt_of_p p i) = cy (point s i)) as XY.
  { intros i Hi. cbn. now apply sc_xy. }
  assert (forall i, i < length (scoords s) -> nn_xy (pt_of_p p i)) as NP.
  { intros i Hi. unfold nn_xy. destruct (XY i Hi) as [-> ->]. now apply NS. }
  destruct (min_index_spec Packed packed_ok packed_coord pt_of_p p_coord p _ from to (sc_len _ _ H) Hft Hn NP) as (r & -> & Hr & A & B).
  destruct (min_index_spec CSeq good_a seq_coord pt_of_a a_coord s _ from to eq_refl Hft Hn NS) as (r' & E & Hr' & A' & B').
  unfold seq_min_index_from_to. rewrite E. do 2 f_equal.
  assert (forall i j, i < length (scoords s) -> j < length (scoords s) ->
    (pt_lt (pt_of_p p i) (pt_of_p p j) <-> pt_lt (point s i) (point s j))) as EQ.
  { intros i j Hi Hj. unfold pt_lt. destruct (XY i Hi) as [-> ->], (XY j Hj) as [-> ->]. reflexivity. }
  unfold pt_of_a in *. destruct (Nat.lt_trichotomy r r') as [L|[L|L]]; [|assumption|].
  - exfalso. specialize (B' r ltac:(lia)). apply (A r' ltac:(lia)). apply EQ; auto; lia.
  - exfalso. specialize (B r' ltac:(lia)). apply (A' r ltac:(lia)). apply EQ; auto; lia.
Qed.
Lemma sc_is_equal p1 p2 s1 s2 : same_content p1 s1 -> same_content p2 s2 -> packed_is_equal p1 p2 = seq_is_equal s1 s2.
Proof.
  intros H1 H2. pose proof H1 as (Ed1 & _ & Es1 & G1 & V1). pose proof H2 as (Ed2 & _ & Es2 & G2 & V2).
  destruct (is_equal_spec Packed packed_size pdim packed_get packed_ok view_p w_p p_size p_get p1 p2 _ _ G1 G2) as (b & E & R).
  { right. unfold D, w_p. lia. }
  destruct (seq_is_equal_spec s1 s2) as (b' & E' & R'). unfold packed_is_equal. rewrite E, E'. f_equal.
  rewrite !vis_p in R.
  apply eq_true_iff_eq. rewrite R, R'. split; intros [L P]; (split; [exact L|]).
  - intros i k Hi Hk Hd. specialize (P i k Hi ltac:(lia)). unfold view_p in P.
    rewrite !(proj2 (Nat.ltb_lt k _)) in P by lia. rewrite V1, V2 in P by lia. unfold ford_eq. destruct P; auto.
  - intros i k Hi Hk. unfold view_p. rewrite !(proj2 (Nat.ltb_lt k _)) by lia. rewrite V1, V2 by lia.
    destruct (P i k Hi ltac:(lia) ltac:(lia)); unfold same_ord; auto.
Qed.

(** ** The comparator *)
Definition good_cmp {A} (cmp : A -> A -> Z) : Prop :=
  (forall a b, cmp a b = -1 \/ cmp a b = 0 \/ cmp a b = 1)%Z /\
  (forall a b, cmp b a = - cmp a b)%Z /\
  (forall a b c, cmp a b <= 0 -> cmp b c <= 0 -> cmp a c <= 0)%Z.
Definition reflects {A} (cmp : A -> A -> Z) (lt eq : A -> A -> Prop) : Prop :=
  forall a b, (cmp a b = (-1)%Z <-> lt a b) /\ (cmp a b = 0%Z <-> eq a b).
Fixpoint lexcmp {A} (cmp : A -> A -> Z) (l1 l2 : list A) : Z :=
  match l1, l2 with
  | [], [] => 0
  | [], _ => -1
  | _, [] => 1
  | a :: s, b :: t => if (cmp a b =? 0)%Z then lexcmp cmp s t else cmp a b
  end%Z.
Lemma lexcmp_good {A} (cmp : A -> A -> Z) : good_cmp cmp -> good_cmp (lexcmp cmp).
Proof.
  intros (R & S & T). split; [|split].
  - induction a as [|a l IH]; intros [|b t]; cbn; auto. destruct (Z.eqb_spec (cmp a b) 0); auto.
  - induction a as [|a l IH]; intros [|b t]; cbn; auto. rewrite (S a b).
    destruct (Z.eqb_spec (cmp a b) 0), (Z.eqb_spec (- cmp a b) 0); auto; lia.
  - induction a as [|a l IH]; intros [|b t] [|c u]; cbn; try lia.
    pose proof (R a b) as R1. pose proof (R b c) as R2. pose proof (R a c) as R3.
    pose proof (S a b) as S1. pose proof (S b c) as S2. pose proof (S a c) as S3.
    pose proof (T a b c) as T1. pose proof (T c a b) as T2. pose proof (T b c a) as T3.
    pose proof (T c b a) as T4.
    destruct (Z.eqb_spec (cmp a b) 0), (Z.eqb_spec (cmp b c) 0), (Z.eqb_spec (cmp a c) 0); try lia.
    apply IH.
Qed.
Lemma lexcmp_reflects {A} (cmp : A -> A -> Z) lt eq : good_cmp cmp -> reflects cmp lt eq ->
  reflects (lexcmp cmp) (lexi lt eq) (Forall2 eq).
Proof.
  intros (R & _ & _) H. intros l1. induction l1 as [|a l IH]; intros [|b t]; cbn.
  - split; split; intros X; try discriminate; try inversion X; constructor.
  - split; split; intros X; try discriminate; try inversion X; try constructor; reflexivity.
  - split; split; intros X; try discriminate; inversion X.
  - destruct (H a b) as [H1 H2]. destruct (IH t) as [I1 I2]. destruct (Z.eqb_spec (cmp a b) 0) as [E|E].
    + split; split; intros X.
      * apply lexi_tail; tauto.
      * inversion X; subst; [|tauto]. exfalso. apply H1 in H3. lia.
      * constructor; tauto.
      * inversion X; subst. tauto.
    + split; split; intros X.
      * apply lexi_head. tauto.
      * inversion X; subst; [tauto|]. exfalso. apply E. tauto.
      * lia.
      * inversion X; subst. exfalso. tauto.
Qed.
Lemma loop_lex {A} (cmp : A -> A -> Z) : forall (l1 l2 : list A) lo (body : nat -> unit -> res (unit + Z)),
  (forall i a b, nth_error l1 i = Some a -> nth_error l2 i = Some b ->
     body (lo + i) tt = Ok (if negb (cmp a b =? 0)%Z then inr (cmp a b) else inl tt)) ->
  exists o, forR (Nat.min (length l1) (length l2)) lo tt body = Ok o /\
    match o with
    | inr c => lexcmp cmp l1 l2 = c
    | inl _ => lexcmp cmp l1 l2 = (if length l2 <? length l1 then 1%Z else if length l1 <? length l2 then (-1)%Z else 0%Z)
    end.
Proof.
  induction l1 as [|a l1 IH]; intros [|b l2] lo body H.
  1-3: exists (inl tt); cbn; auto.
  cbn [length Nat.min forR]. pose proof (H 0 a b eq_refl eq_refl) as H0. rewrite Nat.add_0_r in H0. rewrite H0. cbn [bind lexcmp].
  destruct (Z.eqb_spec (cmp a b) 0) as [E|E]; cbn [negb].
  - destruct (IH l2 (S lo) body) as (o & -> & Ho).
    + intros i x y X Y. specialize (H (S i) x y X Y). now rewrite Nat.add_succ_r in H.
    + exists o. split; [reflexivity|]. destruct o; exact Ho.
  - exists (inr (cmp a b)). auto.
Qed.
Definition nrank (x : f64) : Z := if fis_nan x then (- 2 ^ 2098 - 1)%Z else rank x.
Lemma compare_f64_nrank a b : compare_f64 a b = lex (nrank a) (nrank b) 0.
Proof.
  unfold compare_f64, nrank. destruct (fis_nan a) eqn:Na, (fis_nan b) eqn:Nb.
  - rewrite fltb_nan_l by assumption. unfold fgtb. change (@BinarySingleNaN.Bltb 53 1024) with fltb. rewrite fltb_nan_l by assumption.
    unfold lex. rewrite !Z.ltb_irrefl. reflexivity.
  - rewrite fltb_nan_l by assumption. unfold fgtb. change (@BinarySingleNaN.Bltb 53 1024) with fltb. rewrite fltb_nan_r by assumption.
    pose proof (rank_ge_inf b Nb). unfold lex. rewrite (proj2 (Z.ltb_lt _ _)) by lia. reflexivity.
  - rewrite fltb_nan_r by assumption. unfold fgtb. change (@BinarySingleNaN.Bltb 53 1024) with fltb. rewrite fltb_nan_l by assumption.
    pose proof (rank_ge_inf a Na). unfold lex. rewrite (proj2 (Z.ltb_ge _ _)), (proj2 (Z.ltb_lt _ _)) by lia. reflexivity.
  - rewrite fltb_rank, fgtb_rank by assumption. unfold lex. reflexivity.
Qed.
Lemma compare_f64_good : good_cmp compare_f64.
Proof.
  split; [|split].
  - intros a b. rewrite compare_f64_nrank. pose proof (lex_range (nrank a) (nrank b) 0). lia.
  - intros a b. rewrite !compare_f64_nrank. apply lex_antisym. reflexivity.
  - intros a b c. rewrite !compare_f64_nrank. apply lex_trans. lia.
Qed.
Lemma compare_f64_reflects : reflects compare_f64 ford_lt ford_eq.
Proof.
  intros a b. rewrite compare_f64_nrank. unfold ford_lt, ford_eq. rewrite ltf_rank, eqf_rank. unfold nrank, nn.
  destruct (fis_nan a) eqn:Na, (fis_nan b) eqn:Nb.
  - unfold lex. rewrite !Z.ltb_irrefl. split; split; intros; auto; try discriminate; exfalso; intuition discriminate.
  - pose proof (rank_ge_inf b Nb). unfold lex. rewrite (proj2 (Z.ltb_lt _ _)) by lia.
    split; split; intros; auto; try discriminate; exfalso; intuition discriminate.
  - pose proof (rank_ge_inf a Na). unfold lex. rewrite (proj2 (Z.ltb_ge _ _)), (proj2 (Z.ltb_lt _ _)) by lia.
    split; split; intros; auto; try discriminate; exfalso; intuition discriminate.
  - unfold lex. destruct (Z.ltb_spec (rank a) (rank b)), (Z.ltb_spec (rank b) (rank a));
      split; split; intros; auto; try discriminate; try lia; exfalso; intuition (discriminate || lia).
Qed.
Lemma nth_error_row d c k : k < Z.to_nat d -> nth_error (row d c) k = Some (if k <? 3 then ord4 c k else fnan).
Proof.
  intros H. unfold row. rewrite nth_error_map. rewrite (nth_error_nth' _ 0) by (rewrite seq_length; exact H).
  rewrite seq_nth by assumption. reflexivity.
Qed.
Lemma row_length d c : length (row d c) = Z.to_nat d.
Proof. unfold row. now rewrite map_length, seq_length. Qed.
Lemma compare_coordinate_spec s1 s2 i d : i < length (scoords s1) -> i < length (scoords s2) ->
  (Z.of_nat i < 2147483648)%Z ->
  compare_coordinate s1 s2 (i32_wrap (Z.of_nat i)) d = Ok (lexcmp compare_f64 (row d (point s1 i)) (row d (point s2 i))).
Proof.
  intros H1 H2 Hi. unfold compare_coordinate. cbv zeta. rewrite i32_wrap_small by lia.
  rewrite usize_wrap_small by (unfold usize_max; lia). rewrite Nat2Z.id.
  destruct (loop_lex compare_f64 (row d (point s1 i)) (row d (point s2 i)) 0
    (fun d0 _ => o1 <- seq_get s1 i (Z.of_nat d0) ;; o2 <- seq_get s2 i (Z.of_nat d0) ;;
      let comp := compare_f64 o1 o2 in Ok (if negb (comp =? 0)%Z then inr comp else inl tt))) as (o & E & Ho).
  - intros k a b A B. cbn [Nat.add]. rewrite !seq_get_spec by assumption. cbn [bind].
    assert (k < Z.to_nat d) as Hk. { rewrite <- (row_length d (point s1 i)). apply nth_error_Some. congruence. }
    rewrite nth_error_row in A, B by assumption. inversion A; inversion B. reflexivity.
  - rewrite !row_length, Nat.min_id in E. cbv zeta in E. rewrite E. cbn [bind]. rewrite !row_length, Nat.ltb_irrefl in Ho.
    destruct o; now rewrite Ho.
Qed.
Lemma seq_compare_spec limit s1 s2 : (Z.of_nat (length (scoords s1)) <= 2147483648)%Z ->
  (Z.of_nat (length (scoords s2)) <= 2147483648)%Z ->
  seq_compare limit s1 s2 = Ok (lex (Z.min limit (sdim s1)) (Z.min limit (sdim s2))
     (lexcmp (lexcmp compare_f64) (rows (Z.min limit (sdim s1)) s1) (rows (Z.min limit (sdim s1)) s2))).
Proof.
  intros N1 N2. unfold seq_compare. cbv zeta.
  set (md := if (sdim s2 <? sdim s1)%Z then sdim s2 else sdim s1).
  assert (md = Z.min (sdim s1) (sdim s2)) as Emd by (unfold md; destruct (Z.ltb_spec (sdim s2) (sdim s1)); lia).
  assert (forall d, exists o, forR (Nat.min (seq_size s1) (seq_size s2)) 0 tt (fun i _ =>
      c <- compare_coordinate s1 s2 (i32_wrap (Z.of_nat i)) d ;;
      Ok (if negb (c =? 0)%Z then inr c else inl tt)) = Ok o /\
      match o with
      | inr c => lexcmp (lexcmp compare_f64) (rows d s1) (rows d s2) = c
      | inl _ => lexcmp (lexcmp compare_f64) (rows d s1) (rows d s2) =
          (if seq_size s2 <? seq_size s1 then 1%Z else if seq_size s1 <? seq_size s2 then (-1)%Z else 0%Z)
      end) as LOOP.
  { intros d. destruct (loop_lex (lexcmp compare_f64) (rows d s1) (rows d s2) 0
      (fun i _ => c <- compare_coordinate s1 s2 (i32_wrap (Z.of_nat i)) d ;;
        Ok (if negb (c =? 0)%Z then inr c else inl tt))) as (o & E & Ho).
    - intros i a b A B. cbn [Nat.add]. unfold rows in A, B. rewrite nth_error_map in A, B.
      destruct (nth_error (scoords s1) i) eqn:A1; [|discriminate]. destruct (nth_error (scoords s2) i) eqn:B1; [|discriminate].
      cbn in A, B. inversion A; inversion B; subst.
      assert (i < length (scoords s1)) by (apply nth_error_Some; congruence).
      assert (i < length (scoords s2)) by (apply nth_error_Some; congruence).
      rewrite compare_coordinate_spec by (auto; lia). cbn [bind].
      unfold point. rewrite (nth_error_nth _ _ coord_default A1), (nth_error_nth _ _ coord_default B1). reflexivity.
    - unfold rows in E at 1 2, Ho. rewrite !map_length in E. exists o. split; [exact E|]. destruct o; [|exact Ho].
      unfold rows. rewrite Ho, !map_length. reflexivity. }
  assert (forall d, (r <- forR (Nat.min (seq_size s1) (seq_size s2)) 0 tt (fun i _ =>
      c <- compare_coordinate s1 s2 (i32_wrap (Z.of_nat i)) d ;;
      Ok (if negb (c =? 0)%Z then inr c else inl tt)) ;;
    match r with
    | inr c => Ok c
    | inl _ => if Nat.ltb (Nat.min (seq_size s1) (seq_size s2)) (seq_size s1) then Ok 1%Z
               else if Nat.ltb (Nat.min (seq_size s1) (seq_size s2)) (seq_size s2) then Ok (-1)%Z else Ok 0%Z
    end) = Ok (lexcmp (lexcmp compare_f64) (rows d s1) (rows d s2))) as FIN.
  { intros d. destruct (LOOP d) as (o & E & Ho). rewrite E. cbn [bind]. destruct o; [|now rewrite Ho]. rewrite Ho.
    destruct (Nat.ltb_spec (Nat.min (seq_size s1) (seq_size s2)) (seq_size s1)),
      (Nat.ltb_spec (Nat.min (seq_size s1) (seq_size s2)) (seq_size s2)),
      (Nat.ltb_spec (seq_size s2) (seq_size s1)), (Nat.ltb_spec (seq_size s1) (seq_size s2)); try lia; reflexivity. }
  destruct (Z.leb_spec limit md) as [L|L]; cbn [negb andb].
  - rewrite FIN. f_equal. replace (Z.min limit (sdim s1)) with limit by lia. replace (Z.min limit (sdim s2)) with limit by lia.
    unfold lex. rewrite Z.ltb_irrefl. reflexivity.
  - destruct (Z.ltb_spec (sdim s1) (sdim s2)) as [L1|L1].
    + unfold lex. rewrite (proj2 (Z.ltb_lt _ _)) by lia. reflexivity.
    + destruct (Z.gtb_spec (sdim s1) (sdim s2)) as [L2|L2].
      * unfold lex. rewrite (proj2 (Z.ltb_ge _ _)), (proj2 (Z.ltb_lt _ _)) by lia. reflexivity.
      * rewrite FIN. f_equal. replace (Z.min limit (sdim s2)) with (Z.min limit (sdim s1)) by lia.
        unfold lex. rewrite Z.ltb_irrefl. do 2 f_equal; lia.
Qed.
