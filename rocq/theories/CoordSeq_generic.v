(** What the functions of coordinate_array_sequences.rs and
    packed_coordinate_sequences.rs do to the ordinates, for any sequence type
    whose accessors satisfy the laws listed at the start of the section.  The
    laws are proved for both sequence types in CoordSeq_proofs. *)
From Coq Require Import ZArith Bool List Lia.
From Verif Require Import Base F64 F64Facts Coordinate_model Coordinate_spec Envelope_spec Coordinate_proofs
  CoordArrays_proofs CoordSeq_model.
Import ListNotations.
Open Scope nat_scope.

(** Index [i] and [j] exchanged. *)
Definition tr (i j a : nat) : nat := if a =? i then j else if a =? j then i else a.

Section Generic.
  Variable T : Type.
  Variable size : T -> res nat.
  Variable dim : T -> Z.
  Variable get : T -> nat -> Z -> res f64.
  Variable set : T -> nat -> Z -> f64 -> res T.
  Variable copy_of : T -> res T.
  Variable create : nat -> Z -> res T.
  (** [good s n]: a usable sequence of [n] points; [view s i k]: ordinate [k]
      of point [i]; [w s]: the ordinates below [w s] can be read and written,
      the others read as NaN and ignore writes; [meas s]: the rest. *)
  Variable good : T -> nat -> Prop.
  Variable view : T -> nat -> nat -> f64.
  Variable w : T -> nat.
  Variable meas : T -> Z.
  Variable fits : nat -> T -> Prop.
  Variable cdim cmeas : Z -> Z.
  Definition D (s : T) : nat := Z.to_nat (dim s).
  Definition vis (s : T) : nat := Nat.min (D s) (w s).
  Definition hdr (s s' : T) : Prop := dim s' = dim s /\ w s' = w s /\ meas s' = meas s.
  Hypothesis H_size : forall s n, good s n -> size s = Ok n.
  Hypothesis H_get : forall s n i k, good s n -> i < n -> k < Nat.max 2 (D s) ->
    get s i (Z.of_nat k) = Ok (if k <? w s then view s i k else fnan).
  Hypothesis H_set : forall s n i k v, good s n -> i < n -> k < D s ->
    exists s', set s i (Z.of_nat k) v = Ok s' /\ good s' n /\ hdr s s' /\
      forall i' k', view s' i' k' = if (i' =? i) && (k' =? k) && (k <? w s) then v else view s i' k'.
  Hypothesis H_copy : forall s n, good s n -> copy_of s = Ok s.
  Hypothesis H_w : forall s n, good s n -> 2 <= w s.
  Hypothesis H_create : forall s n m, good s n -> fits m s -> (2 <= dim s)%Z ->
    exists s', create m (dim s) = Ok s' /\ good s' m /\ w s' = w s /\ vis s' = vis s /\ dim s' = cdim (dim s) /\ meas s' = cmeas (dim s).

  Lemma hdr_refl s : hdr s s.
  Proof. easy. Qed.
  Lemma hdr_trans a b c : hdr a b -> hdr b c -> hdr a c.
  Proof. unfold hdr. intros (?&?&?) (?&?&?). repeat split; congruence. Qed.
  Lemma hdr_D a b : hdr a b -> D b = D a.
  Proof. intros (H&_). unfold D. now rewrite H. Qed.
  Lemma hdr_w a b : hdr a b -> w b = w a.
  Proof. now intros (_&H&_). Qed.
  Lemma hdr_vis a b : hdr a b -> vis b = vis a.
  Proof. intros H. unfold vis. now rewrite (hdr_D _ _ H), (hdr_w _ _ H). Qed.

  Lemma swap_spec s n i j : good s n -> i < n -> j < n ->
    exists s', sq_swap T dim get set s i j = Ok s' /\ good s' n /\ hdr s s' /\
      forall a k, view s' a k = if k <? vis s then view s (tr i j a) k else view s a k.
  Proof.
    intros G Hi Hj. unfold sq_swap. destruct (Nat.eqb_spec i j) as [->|Hij].
    - exists s. split; [reflexivity|split; [assumption|split; [apply hdr_refl|]]].
      intros a k. unfold tr. destruct (a =? j) eqn:E; [apply Nat.eqb_eq in E; subst|]; now destruct (k <? vis s).
    - fold (D s).
      destruct (forN_ind (fun d s' => good s' n /\ hdr s s' /\
        forall a k, view s' a k = if (k <? d) && (k <? w s) then view s (tr i j a) k else view s a k)
        (fun d s0 => tmp <- get s0 i (Z.of_nat d) ;; v <- get s0 j (Z.of_nat d) ;;
           s1 <- set s0 i (Z.of_nat d) v ;; set s1 j (Z.of_nat d) tmp) (D s) 0 s) as (s' & E & G' & H' & V').
      + split; [assumption|split; [apply hdr_refl|]]. intros a k. reflexivity.
      + intros d s0 Hd (G0 & H0 & V0).
        pose proof (hdr_D _ _ H0) as ED. pose proof (hdr_w _ _ H0) as EW.
        rewrite (H_get s0 n i d), (H_get s0 n j d) by (auto; lia). cbn [bind].
        destruct (H_set s0 n i d (if d <? w s0 then view s0 j d else fnan)) as (s1 & E1 & G1 & H1 & V1); auto; try lia.
        rewrite E1. cbn [bind].
        pose proof (hdr_D _ _ H1) as ED1. pose proof (hdr_w _ _ H1) as EW1.
        destruct (H_set s1 n j d (if d <? w s0 then view s0 i d else fnan)) as (s2 & E2 & G2 & H2 & V2); auto; try lia.
        exists s2. split; [assumption|]. split; [assumption|].
        split; [eauto using hdr_trans|].
        intros a k. rewrite V2, V1, EW1, EW. unfold tr.
        destruct (Nat.eqb_spec a j) as [->|Ha].
        * rewrite (proj2 (Nat.eqb_neq j i)) by lia. cbn [andb].
          destruct (Nat.eqb_spec k d) as [->|Hk].
          -- destruct (d <? w s) eqn:Ew; cbn [andb].
             ++ rewrite V0. rewrite (Nat.ltb_irrefl d). cbn [andb]. rewrite (proj2 (Nat.ltb_lt d (S d))) by lia. reflexivity.
             ++ rewrite V0, Ew, !andb_false_r. reflexivity.
          -- cbn [andb]. rewrite V0. replace (k <? S d) with (k <? d)
               by (destruct (Nat.ltb_spec k d), (Nat.ltb_spec k (S d)); lia).
             unfold tr. rewrite (proj2 (Nat.eqb_neq j i)) by lia. now rewrite Nat.eqb_refl.
        * cbn [andb]. destruct (Nat.eqb_spec a i) as [->|Ha'].
          -- cbn [andb]. destruct (Nat.eqb_spec k d) as [->|Hk].
             ++ destruct (d <? w s) eqn:Ew; cbn [andb].
                ** rewrite V0. rewrite (Nat.ltb_irrefl d). cbn [andb]. rewrite (proj2 (Nat.ltb_lt d (S d))) by lia. reflexivity.
                ** rewrite V0, Ew, !andb_false_r. reflexivity.
             ++ cbn [andb]. rewrite V0. replace (k <? S d) with (k <? d)
                  by (destruct (Nat.ltb_spec k d), (Nat.ltb_spec k (S d)); lia).
                unfold tr. now rewrite Nat.eqb_refl.
          -- cbn [andb]. rewrite V0. unfold tr.
             rewrite (proj2 (Nat.eqb_neq a i) Ha'), (proj2 (Nat.eqb_neq a j) Ha).
             now destruct ((k <? d) && (k <? w s)), ((k <? S d) && (k <? w s)).
      + exists s'. split; [exact E|]. split; [assumption|split; [assumption|]].
        intros a k. rewrite V'. replace ((k <? 0 + D s) && (k <? w s)) with (k <? vis s); [reflexivity|].
        unfold vis. destruct (Nat.ltb_spec k (0 + D s)), (Nat.ltb_spec k (w s)), (Nat.ltb_spec k (Nat.min (D s) (w s))); cbn; lia.
  Qed.

  Lemma reverse_spec s n : good s n ->
    exists s', sq_reverse T size dim get set s = Ok s' /\ good s' n /\ hdr s s' /\
      forall a k, view s' a k = if (a <? n) && (k <? vis s) then view s (n - 1 - a) k else view s a k.
  Proof.
    intros G. unfold sq_reverse. rewrite (H_size _ _ G). cbn [bind].
    destruct (Nat.leb_spec n 1) as [H|H].
    - exists s. split; [reflexivity|split; [assumption|split; [apply hdr_refl|]]].
      intros a k. destruct (Nat.ltb_spec a n) as [Ha|]; cbn [andb]; [|reflexivity].
      destruct (k <? vis s); [|reflexivity]. f_equal. lia.
    - unfold usub at 1. rewrite (proj2 (Nat.leb_le 1 n)) by lia. cbn [bind].
      set (last := n - 1).
      pose proof (Nat.div_mod last 2 ltac:(lia)) as DM. pose proof (Nat.mod_upper_bound last 2 ltac:(lia)) as MB.
      set (q := Nat.div last 2) in *. assert (last >= 1) as HL by (unfold last; lia).
      destruct (forN_ind (fun i s' => good s' n /\ hdr s s' /\
        forall a k, view s' a k =
          if ((a <? i) || ((last - i <? a) && (a <=? last))) && (k <? vis s) then view s (last - a) k else view s a k)
        (fun i s0 => k <- usub last i ;; sq_swap T dim get set s0 i k) (S q) 0 s) as (s' & E & G' & H' & V').
      + split; [assumption|split; [apply hdr_refl|]]. intros a k. rewrite Nat.sub_0_r.
        destruct (Nat.ltb_spec last a), (Nat.leb_spec a last); cbn; try reflexivity; lia.
      + intros i s0 Hi (G0 & H0 & V0). unfold usub. rewrite (proj2 (Nat.leb_le i last)) by lia. cbn [bind].
        destruct (swap_spec s0 n i (last - i) G0) as (s1 & E1 & G1 & H1 & V1); try lia.
        exists s1. split; [assumption|split; [assumption|split; [eauto using hdr_trans|]]].
        intros a k. rewrite V1, (hdr_vis _ _ H0), !V0. unfold tr.
        destruct (k <? vis s); rewrite ?andb_false_r, ?andb_true_r; [|reflexivity].
        destruct (Nat.eqb_spec a i) as [->|A1].
        * replace ((last - i <? i) || _) with false. 2:{
            symmetry. apply orb_false_iff. split; [apply Nat.ltb_ge; lia|]. apply andb_false_iff. left. apply Nat.ltb_ge. lia. }
          rewrite (proj2 (Nat.ltb_lt i (S i))) by lia. reflexivity.
        * destruct (Nat.eqb_spec a (last - i)) as [->|A2].
          -- replace ((i <? i) || _) with false. 2:{
               symmetry. apply orb_false_iff. split; [apply Nat.ltb_ge; lia|]. apply andb_false_iff. left. apply Nat.ltb_ge. lia. }
             replace ((last - i <? S i) || _) with true. 2:{
               symmetry. apply orb_true_iff. destruct (Nat.ltb_spec (last - i) (S i)); [now left|right].
               apply andb_true_iff. split; [apply Nat.ltb_lt; lia|apply Nat.leb_le; lia]. }
             f_equal. lia.
          -- replace ((a <? S i) || _) with ((a <? i) || (last - i <? a) && (a <=? last)); [reflexivity|].
             destruct (Nat.ltb_spec a i), (Nat.ltb_spec (last - i) a), (Nat.leb_spec a last), (Nat.ltb_spec a (S i)),
               (Nat.ltb_spec (last - S i) a); cbn; try reflexivity; lia.
      + exists s'. split; [exact E|split; [assumption|split; [assumption|]]].
        intros a k. rewrite V'. fold last. destruct (k <? vis s); rewrite ?andb_false_r, ?andb_true_r; [|reflexivity].
        destruct (Nat.ltb_spec a n) as [Ha|Ha].
        * replace ((a <? 0 + S q) || _) with true; [reflexivity|]. symmetry. apply orb_true_iff.
          destruct (Nat.ltb_spec a (0 + S q)); [now left|right].
          apply andb_true_iff. split; [apply Nat.ltb_lt; lia|apply Nat.leb_le; lia].
        * replace ((a <? 0 + S q) || _) with false; [reflexivity|]. symmetry.
          apply orb_false_iff. split; [apply Nat.ltb_ge; lia|]. apply andb_false_iff. right. apply Nat.leb_gt. lia.
  Qed.

  (** Writing the ordinates of one point from another sequence. *)
  Lemma copy_coord_spec src n sp dest m dp : good src n -> sp < n -> good dest m -> dp < m -> w dest = w src ->
    exists d', sq_copy_coord T dim get set src sp dest dp = Ok d' /\ good d' m /\ hdr dest d' /\
      forall a k, view d' a k =
        if (a =? dp) && (k <? Nat.min (vis src) (vis dest)) then view src sp k else view dest a k.
  Proof.
    intros G Hs Gd Hd Ew. unfold sq_copy_coord.
    replace (Z.to_nat (Z.min (dim src) (dim dest))) with (Nat.min (D src) (D dest)) by (unfold D; lia).
    destruct (forN_ind (fun i s' => good s' m /\ hdr dest s' /\
        forall a k, view s' a k = if (a =? dp) && ((k <? i) && (k <? w src)) then view src sp k else view dest a k)
        (fun d dest => v <- get src sp (Z.of_nat d) ;; set dest dp (Z.of_nat d) v)
        (Nat.min (D src) (D dest)) 0 dest) as (s' & E & G' & H' & V').
    - split; [assumption|split; [apply hdr_refl|]]. intros a k. rewrite andb_false_r. reflexivity.
    - intros d s0 Hk (G0 & H0 & V0). pose proof (hdr_D _ _ H0) as ED. pose proof (hdr_w _ _ H0) as EW.
      rewrite (H_get src n sp d) by (auto; lia). cbn [bind].
      destruct (H_set s0 m dp d (if d <? w src then view src sp d else fnan)) as (s1 & E1 & G1 & H1 & V1); auto; try lia.
      exists s1. split; [assumption|split; [assumption|split; [eauto using hdr_trans|]]].
      intros a k. rewrite V1, EW, Ew, V0.
      destruct (Nat.eqb_spec a dp); cbn [andb]; [|reflexivity].
      destruct (Nat.eqb_spec k d) as [->|Hkd]; cbn [andb].
      + rewrite Nat.ltb_irrefl. cbn [andb]. rewrite (proj2 (Nat.ltb_lt d (S d))) by lia. cbn [andb].
        now destruct (d <? w src).
      + replace (k <? S d) with (k <? d) by (destruct (Nat.ltb_spec k d), (Nat.ltb_spec k (S d)); lia). reflexivity.
    - exists s'. split; [exact E|split; [assumption|split; [assumption|]]].
      intros a k. rewrite V'. destruct (a =? dp); [|reflexivity]. cbn [andb]. unfold vis. rewrite Ew.
      replace ((k <? 0 + Nat.min (D src) (D dest)) && (k <? w src))
        with (k <? Nat.min (Nat.min (D src) (w src)) (Nat.min (D dest) (w src))); [reflexivity|].
      destruct (Nat.ltb_spec k (0 + Nat.min (D src) (D dest))), (Nat.ltb_spec k (w src)),
        (Nat.ltb_spec k (Nat.min (Nat.min (D src) (w src)) (Nat.min (D dest) (w src)))); cbn; lia.
  Qed.
  Lemma copy_spec src n sp dest m dp len : good src n -> sp + len <= n -> good dest m -> dp + len <= m ->
    w dest = w src ->
    exists d', sq_copy T dim get set src sp dest dp len = Ok d' /\ good d' m /\ hdr dest d' /\
      forall a k, view d' a k =
        if (dp <=? a) && (a <? dp + len) && (k <? Nat.min (vis src) (vis dest)) then view src (sp + (a - dp)) k
        else view dest a k.
  Proof.
    intros G Hs Gd Hd Ew. unfold sq_copy.
    destruct (forN_ind (fun i s' => good s' m /\ hdr dest s' /\
        forall a k, view s' a k =
          if (dp <=? a) && (a <? dp + i) && (k <? Nat.min (vis src) (vis dest)) then view src (sp + (a - dp)) k
          else view dest a k)
        (fun i dest => sq_copy_coord T dim get set src (sp + i) dest (dp + i)) len 0 dest)
      as (s' & E & G' & H' & V').
    - split; [assumption|split; [apply hdr_refl|]]. intros a k.
      destruct (Nat.leb_spec dp a), (Nat.ltb_spec a (dp + 0)); cbn; try reflexivity; lia.
    - intros i s0 Hi (G0 & H0 & V0).
      destruct (copy_coord_spec src n (sp + i) s0 m (dp + i)) as (s1 & E1 & G1 & H1 & V1); auto; try lia.
      { now rewrite (hdr_w _ _ H0). }
      exists s1. split; [assumption|split; [assumption|split; [eauto using hdr_trans|]]].
      intros a k. rewrite V1, (hdr_vis _ _ H0), V0.
      destruct (k <? Nat.min (vis src) (vis dest)); rewrite ?andb_false_r, ?andb_true_r; [|reflexivity].
      destruct (Nat.eqb_spec a (dp + i)) as [->|A].
      + rewrite (proj2 (Nat.leb_le _ _)) by lia. rewrite (proj2 (Nat.ltb_lt _ _)) by lia. cbn. f_equal. lia.
      + replace (a <? dp + S i) with (a <? dp + i); [reflexivity|].
        destruct (Nat.ltb_spec a (dp + i)), (Nat.ltb_spec a (dp + S i)); lia.
    - exists s'. auto.
  Qed.

  (** Copy into a larger sequence and fill the rest with the point [fillp]. *)
  Lemma closed_or_extended_spec fillp s n m : good s n -> fillp < n -> n <= m -> fits m s -> (2 <= dim s)%Z ->
    exists s', (newseq <- create m (dim s) ;; n <- size s ;; newseq <- sq_copy T dim get set s 0 newseq 0 n ;;
                forN (m - n) n newseq (fun i newseq => sq_copy T dim get set s fillp newseq i 1)) = Ok s' /\
      good s' m /\ vis s' = vis s /\ w s' = w s /\ dim s' = cdim (dim s) /\ meas s' = cmeas (dim s) /\
      (forall a k, a < n -> k < vis s -> view s' a k = view s a k) /\
      (forall a k, n <= a < m -> k < vis s -> view s' a k = view s fillp k).
  Proof.
    intros G Hn Hm F Hd. destruct (H_create s n m G F Hd) as (s0 & E0 & G0 & W0 & V0 & D0 & M0).
    rewrite E0. cbn [bind]. rewrite (H_size _ _ G). cbn [bind].
    destruct (copy_spec s n 0 s0 m 0 n G) as (s1 & E1 & G1 & H1 & V1); auto; try lia.
    rewrite E1. cbn [bind].
    destruct (forN_ind (fun i s' => good s' m /\ hdr s1 s' /\
        forall a k, k < vis s -> a < i -> view s' a k = if a <? n then view s a k else view s fillp k)
        (fun i newseq => sq_copy T dim get set s fillp newseq i 1) (m - n) n s1) as (s' & E & G' & H' & V').
    - split; [assumption|split; [apply hdr_refl|]]. intros a k Hk Ha. rewrite V1, V0.
      rewrite (proj2 (Nat.ltb_lt a n)) by lia. rewrite (proj2 (Nat.ltb_lt a (0 + n))) by lia.
      rewrite (proj2 (Nat.ltb_lt k (Nat.min (vis s) (vis s)))) by lia. cbn. f_equal. lia.
    - intros i s2 Hi (G2 & H2 & V2).
      pose proof (hdr_w _ _ H1) as W1. pose proof (hdr_w _ _ H2) as W2.
      destruct (copy_spec s n fillp s2 m i 1) as (s3 & E3 & G3 & H3 & V3); auto; try lia.
      exists s3. split; [assumption|split; [assumption|split; [eauto using hdr_trans|]]].
      intros a k Hk Ha. rewrite V3, (hdr_vis _ _ H2), (hdr_vis _ _ H1), V0.
      rewrite (proj2 (Nat.ltb_lt k (Nat.min (vis s) (vis s)))) by lia. rewrite andb_true_r.
      destruct (Nat.leb_spec i a), (Nat.ltb_spec a (i + 1)); cbn [andb]; try lia.
      + rewrite (proj2 (Nat.ltb_ge a n)) by lia. f_equal. lia.
      + apply V2; lia.
    - exists s'. split; [exact E|]. split; [assumption|].
      split; [now rewrite (hdr_vis _ _ H'), (hdr_vis _ _ H1)|].
      split; [rewrite (hdr_w _ _ H'), (hdr_w _ _ H1); assumption|].
      destruct H' as (Hd' & _ & Hm'); destruct H1 as (Hd1 & _ & Hm1).
      split; [rewrite Hd', Hd1; assumption|]. split; [rewrite Hm', Hm1; assumption|].
      split; intros a k Ha Hk; rewrite V' by lia.
      + now rewrite (proj2 (Nat.ltb_lt a n)) by lia.
      + now rewrite (proj2 (Nat.ltb_ge a n)) by lia.
  Qed.
  Lemma create_closed_ring_spec s n m : good s n -> 0 < n -> n <= m -> fits m s -> (2 <= dim s)%Z ->
    exists s', sq_create_closed_ring T size dim get set create s m = Ok s' /\
      good s' m /\ vis s' = vis s /\ w s' = w s /\ dim s' = cdim (dim s) /\ meas s' = cmeas (dim s) /\
      (forall a k, a < n -> k < vis s -> view s' a k = view s a k) /\
      (forall a k, n <= a < m -> k < vis s -> view s' a k = view s 0 k).
  Proof. intros. unfold sq_create_closed_ring. now apply closed_or_extended_spec. Qed.
  Lemma extend_spec s n m : good s n -> 0 < n -> n <= m -> fits m s -> (2 <= dim s)%Z ->
    exists s', sq_extend T size dim get set create s m = Ok s' /\
      good s' m /\ vis s' = vis s /\ w s' = w s /\ dim s' = cdim (dim s) /\ meas s' = cmeas (dim s) /\
      (forall a k, a < n -> k < vis s -> view s' a k = view s a k) /\
      (forall a k, n <= a < m -> k < vis s -> view s' a k = view s (n - 1) k).
  Proof.
    intros G Hn Hm F Hd. destruct (closed_or_extended_spec (n - 1) s n m) as (s' & E & R); auto; try lia.
    exists s'. split; [|assumption]. rewrite <- E. unfold sq_extend. destruct (create m (dim s)); [|reflexivity].
    cbn [bind]. rewrite (H_size _ _ G). cbn [bind].
    destruct (sq_copy T dim get set s 0 a 0 n); cbn [bind]; [|reflexivity].
    rewrite (proj2 (Nat.ltb_lt 0 n)) by lia. reflexivity.
  Qed.

  Lemma ends_equal_spec s n : good s n -> 0 < n ->
    sq_ends_equal T get s n = Ok (feqb (view s 0 0) (view s (n - 1) 0) && feqb (view s 0 1) (view s (n - 1) 1)).
  Proof.
    intros G Hn. pose proof (H_w _ _ G) as HW. unfold sq_ends_equal.
    change 0%Z with (Z.of_nat 0). change 1%Z with (Z.of_nat 1).
    rewrite (H_get s n 0 0) by (auto; lia). cbn [bind]. unfold usub.
    rewrite (proj2 (Nat.leb_le 1 n)) by lia. cbn [bind].
    rewrite (H_get s n (n - 1) 0) by (auto; lia). cbn [bind].
    rewrite !(proj2 (Nat.ltb_lt 0 (w s))) by lia.
    destruct (feqb (view s 0 0) (view s (n - 1) 0)); [|reflexivity].
    rewrite (H_get s n 0 1), (H_get s n (n - 1) 1) by (auto; lia). cbn [bind].
    rewrite !(proj2 (Nat.ltb_lt 1 (w s))) by lia. reflexivity.
  Qed.
  Lemma is_ring_spec s n : good s n ->
    sq_is_ring T size get s =
      Ok ((n =? 0) || ((3 <? n) && (feqb (view s 0 0) (view s (n - 1) 0) && feqb (view s 0 1) (view s (n - 1) 1)))).
  Proof.
    intros G. unfold sq_is_ring. rewrite (H_size _ _ G). cbn [bind].
    destruct (Nat.eqb_spec n 0); [reflexivity|]. destruct (Nat.leb_spec n 3), (Nat.ltb_spec 3 n); try lia; [reflexivity|].
    rewrite ends_equal_spec by (auto; lia). reflexivity.
  Qed.
  (** The ring that [ensure_valid_ring] returns. *)
  Lemma ensure_valid_ring_spec s n : good s n -> (2 <= dim s)%Z -> fits 4 s -> fits (n + 1) s ->
    exists s', sq_ensure_valid_ring T size dim get set copy_of create s = Ok s' /\
      let closed := feqb (view s 0 0) (view s (n - 1) 0) && feqb (view s 0 1) (view s (n - 1) 1) in
      (n = 0 \/ (3 < n /\ closed = true) -> s' = s) /\
      (0 < n -> n <= 3 \/ closed = false ->
        let m := if n <=? 3 then 4 else n + 1 in
        good s' m /\ vis s' = vis s /\ w s' = w s /\ dim s' = cdim (dim s) /\ meas s' = cmeas (dim s) /\
        (forall a k, a < n -> k < vis s -> view s' a k = view s a k) /\
        (forall a k, n <= a < m -> k < vis s -> view s' a k = view s 0 k)).
  Proof.
    intros G Hd F4 Fn. unfold sq_ensure_valid_ring. rewrite (H_copy _ _ G). cbn [bind]. rewrite (H_size _ _ G). cbn [bind].
    destruct (Nat.eqb_spec n 0) as [->|Hn].
    { exists s. split; [reflexivity|]. split; [auto|lia]. }
    destruct (Nat.leb_spec n 3) as [H3|H3].
    - destruct (create_closed_ring_spec s n 4) as (s' & E & R); auto; try lia.
      exists s'. split; [exact E|]. split; [intros [?|[? _]]; lia|]. intros _ _. exact R.
    - rewrite ends_equal_spec by (auto; lia). cbn [bind]. cbv zeta.
      destruct (feqb (view s 0 0) (view s (n - 1) 0) && feqb (view s 0 1) (view s (n - 1) 1)) eqn:EC.
      + exists s. split; [reflexivity|]. split; [auto|]. intros _ [?|?]; [lia|discriminate].
      + destruct (create_closed_ring_spec s n (n + 1)) as (s' & E & R); auto; try lia.
        exists s'. split; [exact E|]. split; [intros [?|[_ ?]]; [lia|discriminate]|]. intros _ _. exact R.
  Qed.

  (** Scrolling: point [j] becomes the old point [(i + j) mod last]. *)
  Lemma write_from s n j src m sp : good s n -> j < n -> good src m -> sp < m -> hdr src s ->
    exists s', forN (D s) 0 s (fun k s0 => v <- get src sp (Z.of_nat k) ;; set s0 j (Z.of_nat k) v) = Ok s' /\
      good s' n /\ hdr s s' /\
      forall a k, view s' a k = if (a =? j) && (k <? vis s) then view src sp k else view s a k.
  Proof.
    intros G Hj Gs Hs HH.
    destruct (copy_coord_spec src m sp s n j) as (s' & E & R); auto. { apply (hdr_w _ _ HH). }
    exists s'. split.
    - rewrite <- E. unfold sq_copy_coord. f_equal. destruct HH as (Hd & _). rewrite Hd, Z.min_id. unfold D. now rewrite Hd.
    - destruct R as (R1 & R2 & R3). repeat (split; [assumption|]). intros a k. rewrite R3, (hdr_vis _ _ HH), Nat.min_id. reflexivity.
  Qed.
  Lemma write_self s n j : good s n -> 0 < j < n ->
    exists s', forN (D s) 0 s (fun k s0 => v <- get s0 0 (Z.of_nat k) ;; set s0 j (Z.of_nat k) v) = Ok s' /\
      good s' n /\ hdr s s' /\
      forall a k, view s' a k = if (a =? j) && (k <? vis s) then view s 0 k else view s a k.
  Proof.
    intros G Hj.
    destruct (forN_ind (fun i s' => good s' n /\ hdr s s' /\
        forall a k, view s' a k = if (a =? j) && ((k <? i) && (k <? w s)) then view s 0 k else view s a k)
        (fun k s0 => v <- get s0 0 (Z.of_nat k) ;; set s0 j (Z.of_nat k) v) (D s) 0 s) as (s' & E & G' & H' & V').
    - split; [assumption|split; [apply hdr_refl|]]. intros a k. now rewrite andb_false_r.
    - intros d s0 Hk (G0 & H0 & V0). pose proof (hdr_D _ _ H0) as ED. pose proof (hdr_w _ _ H0) as EW.
      rewrite (H_get s0 n 0 d) by (auto; lia). cbn [bind].
      destruct (H_set s0 n j d (if d <? w s0 then view s0 0 d else fnan)) as (s1 & E1 & G1 & H1 & V1); auto; try lia.
      exists s1. split; [assumption|split; [assumption|split; [eauto using hdr_trans|]]].
      intros a k. rewrite V1, EW, !V0. rewrite (proj2 (Nat.eqb_neq 0 j)) by lia.
      destruct (Nat.eqb_spec a j); cbn [andb]; [|reflexivity].
      destruct (Nat.eqb_spec k d) as [->|Hkd]; cbn [andb].
      + rewrite Nat.ltb_irrefl. cbn [andb]. rewrite (proj2 (Nat.ltb_lt d (S d))) by lia. cbn [andb].
        now destruct (d <? w s).
      + replace (k <? S d) with (k <? d) by (destruct (Nat.ltb_spec k d), (Nat.ltb_spec k (S d)); lia). reflexivity.
    - exists s'. split; [exact E|split; [assumption|split; [assumption|]]].
      intros a k. rewrite V'. destruct (a =? j); [|reflexivity]. cbn [andb]. unfold vis.
      replace ((k <? 0 + D s) && (k <? w s)) with (k <? Nat.min (D s) (w s)); [reflexivity|].
      destruct (Nat.ltb_spec k (0 + D s)), (Nat.ltb_spec k (w s)), (Nat.ltb_spec k (Nat.min (D s) (w s))); cbn; lia.
  Qed.

  Lemma scroll_ring_spec s n i (ring : bool) : good s n -> 0 < i -> (ring = true -> 1 < n) ->
    let last := if ring then n - 1 else n in
    exists s', sq_scroll_ring T size dim get set copy_of s i ring = Ok s' /\ good s' n /\ hdr s s' /\
      forall a k, view s' a k =
        if k <? vis s then
          if a <? last then view s ((i + a) mod last) k
          else if ring && (a =? last) then view s (i mod last) k
          else view s a k
        else view s a k.
  Proof.
    intros G Hi Hr last. unfold sq_scroll_ring. rewrite (proj2 (Nat.leb_gt i 0)) by lia.
    rewrite (H_copy _ _ G). cbn [bind]. rewrite (H_size _ _ G). cbn [bind].
    assert ((if ring then usub n 1 else Ok n) = Ok last) as ->.
    { unfold last. destruct ring; [|reflexivity]. unfold usub. specialize (Hr eq_refl).
      now rewrite (proj2 (Nat.leb_le 1 n)) by lia. }
    cbn [bind].
    destruct (forN_ind (fun j s' => good s' n /\ hdr s s' /\
        forall a k, view s' a k =
        if k <? vis s then
          if a <? j then view s ((i + a) mod last) k
          else if ring && ((0 <? j) && (a =? last)) then view s (i mod last) k
          else view s a k
        else view s a k)
      (fun j s0 =>
        s1 <- forN (Z.to_nat (dim s0)) 0 s0 (fun k s1 =>
          v <- get s (Nat.modulo (i + j) last) (Z.of_nat k) ;; set s1 j (Z.of_nat k) v) ;;
        if ring then
          forN (Z.to_nat (dim s1)) 0 s1 (fun k s2 =>
            v <- get s2 0 (Z.of_nat k) ;; set s2 last (Z.of_nat k) v)
        else Ok s1) last 0 s) as (s' & E & G' & H' & V').
    - split; [assumption|split; [apply hdr_refl|]]. intros a k. rewrite (proj2 (Nat.ltb_ge a 0)) by lia. rewrite (proj2 (Nat.ltb_ge 0 0)) by lia. cbn [andb]. rewrite andb_false_r. now destruct (k <? vis s).
    - intros j s0 Hj (G0 & H0 & V0). fold (D s0).
      assert (last <= n) as HLn by (unfold last; destruct ring; lia).
      pose proof (Nat.mod_upper_bound (i + j) last ltac:(lia)) as HMb.
      destruct (write_from s0 n j s n ((i + j) mod last)) as (s1 & E1 & G1 & H1 & V1); auto; try lia.
      rewrite E1. cbn [bind].
      assert (forall a k, view s1 a k =
        if k <? vis s then
          if a <? S j then view s ((i + a) mod last) k
          else if ring && ((0 <? j) && (a =? last)) then view s (i mod last) k
          else view s a k
        else view s a k) as V1'.
      { intros a k. rewrite V1, V0, (hdr_vis _ _ H0).
        destruct (k <? vis s); rewrite ?andb_false_r, ?andb_true_r; [|reflexivity].
        destruct (Nat.eqb_spec a j) as [->|]; [now rewrite (proj2 (Nat.ltb_lt j (S j))) by lia|].
        replace (a <? S j) with (a <? j) by (destruct (Nat.ltb_spec a j), (Nat.ltb_spec a (S j)); lia). reflexivity. }
      destruct ring.
      + fold (D s1). specialize (Hr eq_refl). unfold last in *.
        destruct (write_self s1 n (n - 1)) as (s2 & E2 & G2 & H2 & V2); auto; try lia.
        exists s2. split; [assumption|split; [assumption|split; [eauto using hdr_trans|]]].
        intros a k. rewrite V2, !V1', (hdr_vis _ _ (hdr_trans _ _ _ H0 H1)).
        destruct (k <? vis s); rewrite ?andb_false_r, ?andb_true_r; [|reflexivity].
        rewrite !(proj2 (Nat.ltb_lt 0 (S j))) by lia. cbn [andb]. rewrite Nat.add_0_r.
        destruct (Nat.eqb_spec a (n - 1)) as [->|A].
        * rewrite (proj2 (Nat.ltb_ge (n - 1) (S j))) by lia. reflexivity.
        * rewrite andb_false_r. reflexivity.
      + exists s1. split; [reflexivity|split; [assumption|split; [eauto using hdr_trans|]]].
        intros a k. rewrite V1'. cbn [andb]. reflexivity.
    - exists s'. split; [exact E|split; [assumption|split; [assumption|]]].
      intros a k. rewrite V', !Nat.add_0_l. destruct (k <? vis s); [|reflexivity].
      destruct (Nat.ltb_spec a last); [reflexivity|].
      destruct ring; [|reflexivity]. specialize (Hr eq_refl). unfold last.
      rewrite (proj2 (Nat.ltb_lt 0 (n - 1))) by lia. reflexivity.
  Qed.

  (** Equality of two sequences: ordinate by ordinate. *)
  Definition same_ord (a b : f64) : Prop := eqf a b \/ (fis_nan a = true /\ fis_nan b = true).
  Lemma is_equal_spec s1 s2 n1 n2 : good s1 n1 -> good s2 n2 -> w s1 = w s2 \/ (D s1 <= w s1 /\ D s2 <= w s2) ->
    exists b, sq_is_equal T size dim get s1 s2 = Ok b /\
      (b = true <-> n1 = n2 /\ forall i k, i < n1 -> k < Nat.min (vis s1) (vis s2) ->
         same_ord (view s1 i k) (view s2 i k)).
  Proof.
    intros G1 G2 EW. unfold sq_is_equal. rewrite (H_size _ _ G1), (H_size _ _ G2). cbn [bind].
    destruct (Nat.eqb_spec n1 n2) as [->|Hn]; cbn [negb].
    2:{ exists false. split; [reflexivity|]. split; [discriminate|]. now intros [? _]. }
    replace (Z.to_nat (Z.min (dim s1) (dim s2))) with (Nat.min (D s1) (D s2)) by (unfold D; lia).
    assert (forall i, i < n2 ->
      (exists u, forR (Nat.min (D s1) (D s2)) 0 tt (fun d _ =>
          v1 <- get s1 i (Z.of_nat d) ;; v2 <- get s2 i (Z.of_nat d) ;;
          Ok (if feqb v1 v2 then inl tt else if fis_nan v1 && fis_nan v2 then inl tt else inr false)) = Ok (inl u)
        /\ (forall k, k < Nat.min (vis s1) (vis s2) -> same_ord (view s1 i k) (view s2 i k))) \/
      (exists b : bool, forR (Nat.min (D s1) (D s2)) 0 tt (fun d _ =>
          v1 <- get s1 i (Z.of_nat d) ;; v2 <- get s2 i (Z.of_nat d) ;;
          Ok (if feqb v1 v2 then inl tt else if fis_nan v1 && fis_nan v2 then inl tt else inr false)) = Ok (inr b)
        /\ b = false /\ ~ (forall k, k < Nat.min (vis s1) (vis s2) -> same_ord (view s1 i k) (view s2 i k)))) as IN.
    { intros i Hi.
      destruct (forR_ind (fun d (_ : unit) => forall k, k < Nat.min (vis s1) (vis s2) -> k < d -> same_ord (view s1 i k) (view s2 i k))
        (fun b : bool => b = false /\ ~ (forall k, k < Nat.min (vis s1) (vis s2) -> same_ord (view s1 i k) (view s2 i k)))
        (fun d _ =>
          v1 <- get s1 i (Z.of_nat d) ;; v2 <- get s2 i (Z.of_nat d) ;;
          Ok (if feqb v1 v2 then inl tt else if fis_nan v1 && fis_nan v2 then inl tt else inr false))
        (Nat.min (D s1) (D s2)) 0 tt) as [(u & E & P)|(b & E & P)].
      - intros; lia.
      - intros d u Hd P. rewrite (H_get s1 n2 i d), (H_get s2 n2 i d) by (auto; lia). cbn [bind].
        destruct (Nat.ltb_spec d (w s1)) as [L1|L1], (Nat.ltb_spec d (w s2)) as [L2|L2]; try lia.
        + destruct (feqb (view s1 i d) (view s2 i d)) eqn:E1;
            [|destruct (fis_nan (view s1 i d) && fis_nan (view s2 i d)) eqn:E2].
          * left. exists tt. split; [reflexivity|]. intros k Hk Hkd.
            destruct (Nat.eq_dec k d) as [->|]; [now left|apply P; lia].
          * left. exists tt. split; [reflexivity|]. intros k Hk Hkd. apply andb_prop in E2.
            destruct (Nat.eq_dec k d) as [->|]; [now right|apply P; lia].
          * right. exists false. split; [reflexivity|]. split; [reflexivity|]. intros A.
            destruct (A d) as [A'|[A' A'']]; [unfold vis; lia|unfold eqf in A'; congruence|].
            now rewrite A', A'' in E2.
        + left. exists tt. split; [reflexivity|]. intros k Hk Hkd. apply P; unfold vis in *; lia.
      - left. exists u. split; [exact E|]. intros k Hk. apply P; [assumption|]. unfold vis in Hk. lia.
      - right. exists b. auto. }
    destruct (forR_ind (fun i (_ : unit) => forall i', i' < i -> forall k, k < Nat.min (vis s1) (vis s2) -> same_ord (view s1 i' k) (view s2 i' k))
        (fun b : bool => b = false /\ ~ (forall i k, i < n2 -> k < Nat.min (vis s1) (vis s2) -> same_ord (view s1 i k) (view s2 i k)))
        (fun i _ => forR (Nat.min (D s1) (D s2)) 0 tt (fun d _ =>
          v1 <- get s1 i (Z.of_nat d) ;; v2 <- get s2 i (Z.of_nat d) ;;
          Ok (if feqb v1 v2 then inl tt else if fis_nan v1 && fis_nan v2 then inl tt else inr false)))
        n2 0 tt) as [(u & E & P)|(b & E & P)].
    - intros; lia.
    - intros i u Hi P. destruct (IN i ltac:(lia)) as [(u' & E & A)|(b & E & Eb & A)]; rewrite E.
      + left. exists u'. split; [reflexivity|]. intros i' Hi'. destruct (Nat.eq_dec i' i) as [->|]; [exact A|apply P; lia].
      + right. exists b. split; [reflexivity|]. split; [assumption|]. intros A'. apply A. intros k Hk. apply A'; lia.
    - rewrite E. cbn [bind]. exists true. split; [reflexivity|]. split; [intros _; split; [reflexivity|]|auto].
      intros i k Hi. apply P. lia.
    - rewrite E. cbn [bind]. exists b. split; [reflexivity|]. destruct P as [-> P]. split; [discriminate|]. intros [_ A]. now elim P.
  Qed.

  (** First point with the given X and Y. *)
  Lemma index_of_spec c s n : good s n -> (Z.of_nat n <= 2147483648)%Z ->
    exists z, sq_index_of T size get c s = Ok z /\
    ((z = (-1)%Z /\ forall i, i < n -> ~ (eqf (cx c) (view s i 0) /\ eqf (cy c) (view s i 1))) \/
     (exists i, z = Z.of_nat i /\ i < n /\ eqf (cx c) (view s i 0) /\ eqf (cy c) (view s i 1) /\
        forall j, j < i -> ~ (eqf (cx c) (view s j 0) /\ eqf (cy c) (view s j 1)))).
  Proof.
    intros G Hn. unfold sq_index_of. rewrite (H_size _ _ G). cbn [bind]. pose proof (H_w _ _ G) as HW.
    destruct (forR_ind (fun i (_ : unit) => forall j, j < i -> ~ (eqf (cx c) (view s j 0) /\ eqf (cy c) (view s j 1)))
      (fun z => exists i, z = Z.of_nat i /\ i < n /\ eqf (cx c) (view s i 0) /\ eqf (cy c) (view s i 1) /\
        forall j, j < i -> ~ (eqf (cx c) (view s j 0) /\ eqf (cy c) (view s j 1)))
      (fun i _ => x <- get s i 0 ;;
        b <- (if feqb (cx c) x then y <- get s i 1 ;; Ok (feqb (cy c) y) else Ok false) ;;
        Ok (if b : bool then inr (i32_wrap (Z.of_nat i)) else inl tt)) n 0 tt) as [(u & E & P)|(z & E & P)].
    - intros; lia.
    - intros i u Hi P. pose proof (H_get s n i 0 G ltac:(lia) ltac:(lia)) as E0. pose proof (H_get s n i 1 G ltac:(lia) ltac:(lia)) as E1.
      change (Z.of_nat 0) with 0%Z in E0. change (Z.of_nat 1) with 1%Z in E1. rewrite E0, E1. cbn [bind].
      rewrite (proj2 (Nat.ltb_lt 0 (w s))) by lia. rewrite (proj2 (Nat.ltb_lt 1 (w s))) by lia.
      destruct (feqb (cx c) (view s i 0)) eqn:Ex; cbn [bind].
      + destruct (feqb (cy c) (view s i 1)) eqn:Ey.
        * right. exists (Z.of_nat i). rewrite i32_wrap_small by lia. split; [reflexivity|]. exists i.
          unfold eqf in *. rewrite Ex, Ey. repeat split; auto; lia.
        * left. exists tt. split; [reflexivity|]. intros j Hj. destruct (Nat.eq_dec j i) as [->|]; [|apply P; lia].
          unfold eqf. rewrite Ey. now intros [_ ?].
      + left. exists tt. split; [reflexivity|]. intros j Hj. destruct (Nat.eq_dec j i) as [->|]; [|apply P; lia].
        unfold eqf. rewrite Ex. now intros [? _].
    - rewrite E. cbn [bind]. exists (-1)%Z. split; [reflexivity|]. left. split; [reflexivity|]. intros i Hi. apply P. lia.
    - rewrite E. cbn [bind]. exists z. split; [reflexivity|]. now right.
  Qed.

  (** Smallest point by X then Y, and the first position where it is. *)
  Variable coord : T -> nat -> res Coordinate.
  Variable pt_of : T -> nat -> Coordinate.
  Hypothesis H_coord : forall s n i, good s n -> i < n -> coord s i = Ok (pt_of s i).
  Lemma gt_pt a b : nn_xy a -> nn_xy b -> (compare_to a b >? 0)%Z = true <-> pt_lt b a.
  Proof.
    intros A B. rewrite <- (compare_to_gt a b) by assumption. pose proof (compare_to_range a b).
    destruct (Z.gtb_spec (compare_to a b) 0); split; intros; try lia; try discriminate; reflexivity.
  Qed.
  Lemma pt_lt_trans a b c : nn_xy a -> nn_xy b -> nn_xy c -> pt_lt a b -> pt_lt b c -> pt_lt a c.
  Proof. intros A B C. rewrite !pt_lt_rank by assumption. lia. Qed.
  Lemma pt_le_lt_trans a b c : nn_xy a -> nn_xy b -> nn_xy c -> ~ pt_lt b a -> pt_lt b c -> pt_lt a c.
  Proof. intros A B C. rewrite !pt_lt_rank by assumption. lia. Qed.
  Lemma pt_lt_irrefl a : ~ pt_lt a a.
  Proof. unfold pt_lt. intros [H|[_ H]]; apply ltf_rank in H; lia. Qed.
  Lemma min_index_spec s n from to : good s n -> from <= to < n -> (Z.of_nat n <= 2147483648)%Z ->
    (forall i, i < n -> nn_xy (pt_of s i)) ->
    exists r, sq_min_index_from_to T coord s from to = Ok (Z.of_nat r) /\ from <= r <= to /\
      (forall j, from <= j <= to -> ~ pt_lt (pt_of s j) (pt_of s r)) /\
      (forall j, from <= j < r -> pt_lt (pt_of s r) (pt_of s j)).
  Proof.
    intros G Hft Hn N. unfold sq_min_index_from_to.
    destruct (forN_ind (fun i '(k, m) => match m with
        | None => i = from /\ k = (-1)%Z
        | Some b => exists r, k = Z.of_nat r /\ b = pt_of s r /\ from <= r < i /\
            (forall j, from <= j < i -> ~ pt_lt (pt_of s j) (pt_of s r)) /\
            (forall j, from <= j < r -> pt_lt (pt_of s r) (pt_of s j))
        end)
      (fun i '(k, m) =>
        c <- coord s i ;;
        Ok (match m with
          | None => (i32_wrap (Z.of_nat i), Some c)
          | Some b => if (compare_to b c >? 0)%Z then (i32_wrap (Z.of_nat i), Some c) else (k, m)
          end)) (S to - from) from ((-1)%Z, None)) as ((k & m) & E & P).
    - auto.
    - intros i (k & m) Hi P. rewrite (H_coord s n i) by (auto; lia). cbn [bind].
      destruct m as [b|].
      + destruct P as (r & -> & -> & Hr & P1 & P2).
        pose proof (gt_pt (pt_of s r) (pt_of s i) (N r ltac:(lia)) (N i ltac:(lia))) as GT.
        destruct (compare_to (pt_of s r) (pt_of s i) >? 0)%Z.
        * pose proof (proj1 GT eq_refl) as L. rewrite i32_wrap_small by lia.
          eexists. split; [reflexivity|]. cbn beta iota. exists i. repeat split; try lia.
          -- intros j Hj L'. destruct (Nat.eq_dec j i) as [->|]; [now apply pt_lt_irrefl in L'|].
             apply (P1 j ltac:(lia)). apply pt_lt_trans with (pt_of s i); auto; apply N; lia.
          -- intros j Hj. apply pt_le_lt_trans with (pt_of s i); try (apply N; lia); [apply pt_lt_irrefl|].
             destruct (Nat.eq_dec j r) as [->|]; [assumption|].
             destruct (Nat.lt_ge_cases j r).
             ++ apply pt_lt_trans with (pt_of s r); auto; try (apply N; lia). apply P2. lia.
             ++ specialize (P1 j ltac:(lia)). rewrite pt_lt_rank in P1, L by (apply N; lia). rewrite pt_lt_rank by (apply N; lia). lia.
        * eexists. split; [reflexivity|]. cbn beta iota. exists r. repeat split; try lia; auto.
          intros j Hj. destruct (Nat.eq_dec j i) as [->|]; [|apply P1; lia]. intros L. apply GT in L. discriminate.
      + destruct P as [-> ->]. rewrite i32_wrap_small by lia. eexists. split; [reflexivity|]. cbn beta iota.
        exists from. repeat split; try lia. intros j Hj. replace j with from by lia. apply pt_lt_irrefl.
    - rewrite E. cbn [bind fst]. destruct m as [b|]; [|lia].
      destruct P as (r & -> & -> & Hr & P1 & P2). exists r. unfold usize_wrap. rewrite Z.mod_small by lia.
      split; [reflexivity|]. split; [lia|]. split; [intros j Hj; apply P1; lia|assumption].
  Qed.
  Lemma min_coordinate_spec_seq s n : good s n -> (forall i, i < n -> nn_xy (pt_of s i)) ->
    exists o, sq_min_coordinate T size coord s = Ok o /\
      match o with
      | None => n = 0
      | Some c => (exists i, i < n /\ c = pt_of s i) /\ forall j, j < n -> ~ pt_lt (pt_of s j) c
      end.
  Proof.
    intros G N. unfold sq_min_coordinate. rewrite (H_size _ _ G). cbn [bind].
    destruct (forN_ind (fun i o => match o with
        | None => i = 0
        | Some c => (exists i', i' < i /\ c = pt_of s i') /\ forall j, j < i -> ~ pt_lt (pt_of s j) c
        end)
      (fun i m => c <- coord s i ;;
        Ok (match m with None => Some c | Some b => if (compare_to b c >? 0)%Z then Some c else m end))
      n 0 None) as (o & E & P).
    - reflexivity.
    - intros i m Hi P. rewrite (H_coord s n i) by (auto; lia). cbn [bind]. eexists. split; [reflexivity|].
      destruct m as [b|].
      + destruct P as ((i' & Hi' & ->) & P1).
        pose proof (gt_pt (pt_of s i') (pt_of s i) (N i' ltac:(lia)) (N i ltac:(lia))) as GT.
        destruct (compare_to (pt_of s i') (pt_of s i) >? 0)%Z.
        * split; [exists i; split; [lia|reflexivity]|]. pose proof (proj1 GT eq_refl) as L.
          intros j Hj L'. destruct (Nat.eq_dec j i) as [->|]; [now apply pt_lt_irrefl in L'|].
          apply (P1 j ltac:(lia)). apply pt_lt_trans with (pt_of s i); auto; apply N; lia.
        * split; [exists i'; split; [lia|reflexivity]|].
          intros j Hj. destruct (Nat.eq_dec j i) as [->|]; [|apply P1; lia]. intros L. apply GT in L. discriminate.
      + subst i. split; [exists 0; split; [lia|reflexivity]|]. intros j Hj. replace j with 0 by lia. apply pt_lt_irrefl.
    - exists o. split; [exact E|]. exact P.
  Qed.
End Generic.
