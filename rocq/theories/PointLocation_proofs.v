(** Proofs about point location. *)
From Coq Require Import ZArith Bool List Reals Lia Lra Psatz Permutation.
From Flocq Require Import Core IEEE754.BinarySingleNaN.
From Verif Require Import Base F64 F64Facts Coordinate_model Envelope_model CoordArrays_model
  CoordSeq_model CoordSeq_spec CoordSeq_proofs DD_spec Orientation_model Orientation_spec Orientation_proofs
  Measure_proofs PointLocation_model PointLocation_spec.
Import ListNotations.
Open Scope Z_scope.

(** ** The entry points agree *)
Lemma count_segment_xy c p1 p2 q1 q2 : cx p1 = cx q1 -> cy p1 = cy q1 -> cx p2 = cx q2 -> cy p2 = cy q2 ->
  count_segment c p1 p2 = count_segment c q1 q2.
Proof. intros A B C D. unfold count_segment, orient. now rewrite A, B, C, D. Qed.

Lemma seq_get_x s i : (i < seq_size s)%nat -> seq_get s i 0 = Ok (cx (nth i (scoords s) coord_default)).
Proof. intros H. unfold seq_get. now rewrite (idx_nth _ _ coord_default). Qed.
Lemma seq_get_y' s i : (i < seq_size s)%nat -> seq_get s i 1 = Ok (cy (nth i (scoords s) coord_default)).
Proof. intros H. unfold seq_get. now rewrite (idx_nth _ _ coord_default). Qed.

Lemma locate_seq_vec p s : locate_seq p s = locate_vec p (scoords s).
Proof.
  unfold locate_seq, locate_vec. fold (seq_size s).
  assert (Gen : forall n lo p1 p2 c, (1 <= lo)%nat -> (lo + n <= seq_size s)%nat ->
    bind (forR n lo (p1, p2, c) (fun i '(p1, p2, c) =>
      v <- seq_get s i 0 ;; let p1 := set_x p1 v in
      v <- seq_get s i 1 ;; let p1 := set_y p1 v in
      k <- usub i 1 ;;
      v <- seq_get s k 0 ;; let p2 := set_x p2 v in
      v <- seq_get s k 1 ;; let p2 := set_y p2 v in
      c <- count_segment c p1 p2 ;;
      if con c then Ok (inr (get_location c)) else Ok (inl (p1, p2, c))))
      (fun o => match o with inl (_, _, c) => Ok (get_location c) | inr l => Ok l end) =
    bind (forR n lo c (fun i c =>
      p1 <- idx (scoords s) i ;; k <- usub i 1 ;; p2 <- idx (scoords s) k ;;
      c <- count_segment c p1 p2 ;;
      if con c then Ok (inr (get_location c)) else Ok (inl c)))
      (fun o => match o with inl c => Ok (get_location c) | inr l => Ok l end)).
  { induction n as [|n IH]; intros lo p1 p2 c H1 H2; [reflexivity|].
    cbn [forR]. unfold usub. replace (1 <=? lo)%nat with true by (symmetry; apply Nat.leb_le; lia).
    rewrite seq_get_x, seq_get_y' by lia. cbn [bind].
    rewrite seq_get_x, seq_get_y' by lia. cbn [bind].
    rewrite !(idx_nth (scoords s) _ coord_default) by (fold (seq_size s); lia). cbn [bind].
    rewrite (count_segment_xy c _ _ (nth lo (scoords s) coord_default) (nth (lo - 1) (scoords s) coord_default))
      by reflexivity.
    destruct (count_segment c (nth lo (scoords s) coord_default) (nth (lo - 1) (scoords s) coord_default)) as [c'|];
      [|reflexivity].
    cbn [bind]. destruct (con c'); cbn [bind]; [reflexivity|]. apply IH; lia. }
  destruct (Nat.eq_dec (seq_size s) 0) as [E|E]; [rewrite E; reflexivity|].
  exact (Gen (seq_size s - 1)%nat 1%nat coord_default coord_default (counter_new p) ltac:(lia) ltac:(lia)).
Qed.
Lemma forR_ext {S R} n lo (s : S) (b1 b2 : nat -> S -> res (S + R)) :
  (forall i s, (lo <= i < lo + n)%nat -> b1 i s = b2 i s) -> forR n lo s b1 = forR n lo s b2.
Proof.
  revert lo s. induction n as [|n IH]; intros lo s H; [reflexivity|]. cbn [forR].
  rewrite (H lo s) by lia. destruct (b2 lo s) as [[s'|r]|]; cbn [bind]; try reflexivity.
  apply IH. intros. apply H. lia.
Qed.
Lemma locate_packed_seq p k s : same_content k s -> locate_packed p k = locate_seq p s.
Proof.
  intros H. unfold locate_packed, locate_seq.
  rewrite (p_size k _ (sc_len k s H)). fold (seq_size s). cbn [bind]. f_equal.
  apply forR_ext. intros i [[p1 p2] c] Hi. unfold usub.
  replace (1 <=? i)%nat with true by (symmetry; apply Nat.leb_le; lia).
  assert (2 <= pdim k) by (pose proof (p_w k _ (sc_len k s H)) as W; unfold w_p in W; lia).
  pose proof (sc_get k s) as G. fold (seq_size s) in G.
  change (length (scoords s)) with (seq_size s) in G.
  assert (G0 : forall j, (j < seq_size s)%nat -> packed_get k j 0 = seq_get s j 0)
    by (intros j Hj; apply (G j 0%nat H Hj); cbn; lia).
  assert (G1 : forall j, (j < seq_size s)%nat -> packed_get k j 1 = seq_get s j 1)
    by (intros j Hj; apply (G j 1%nat H Hj); cbn; lia).
  rewrite (G0 i), (G1 i) by lia. cbn [bind]. rewrite (G0 (i - 1)%nat), (G1 (i - 1)%nat) by lia. reflexivity.
Qed.

(** Counting every segment, with no early exit. *)
Fixpoint count_all (c : Counter) (l : list (Coordinate * Coordinate)) : res Counter :=
  match l with
  | [] => Ok c
  | (a, b) :: t => c' <- count_segment c b a ;; count_all c' t
  end.
Lemma count_segment_con c p1 p2 c' : con c = true -> count_segment c p1 p2 = Ok c' -> con c' = true.
Proof.
  intros H. unfold count_segment.
  repeat match goal with |- context [if ?b then _ else _] => destruct b end;
    try (intros E; injection E as <-; first [reflexivity|exact H]).
  all: unfold i32_chk; repeat match goal with |- context [if ?b then _ else _] => destruct b end; cbn [bind];
    try discriminate; intros E; injection E as <-; cbn [con]; try reflexivity; exact H.
Qed.
Lemma count_segment_cnt c p1 p2 c' : count_segment c p1 p2 = Ok c' ->
  cpt c' = cpt c /\ (ccount c' = ccount c \/ ccount c' = ccount c + 1).
Proof.
  unfold count_segment.
  repeat match goal with |- context [if ?b then _ else _] => destruct b end;
    try (intros E; injection E as <-; cbn [cpt ccount]; split; [reflexivity|left; reflexivity]).
  all: unfold i32_chk; repeat match goal with |- context [if ?b then _ else _] => destruct b end; cbn [bind];
    try discriminate; intros E; injection E as <-; cbn [cpt ccount]; split; try reflexivity; [right|left..]; reflexivity.
Qed.
Lemma count_segment_total c p1 p2 : 0 <= ccount c < i32_max -> exists c', count_segment c p1 p2 = Ok c'.
Proof.
  intros H. unfold count_segment.
  repeat match goal with |- context [if ?b then _ else _] => destruct b end; try (eexists; reflexivity).
  all: unfold i32_chk; replace ((i32_min <=? ccount c + 1) && (ccount c + 1 <=? i32_max)) with true;
    [cbn [bind]; eexists; reflexivity|
     symmetry; apply andb_true_iff; split; apply Z.leb_le; unfold i32_min, i32_max in *; lia].
Qed.
Lemma count_all_total l : forall c, 0 <= ccount c -> ccount c + Z.of_nat (length l) <= i32_max ->
  exists c', count_all c l = Ok c' /\ (con c = true -> con c' = true).
Proof.
  induction l as [|[a b] l IH]; intros c H0 H; cbn [length] in H; [exists c; split; [reflexivity|auto]|].
  cbn [count_all]. destruct (count_segment_total c b a) as (c1 & E1); [lia|]. rewrite E1. cbn [bind].
  destruct (count_segment_cnt _ _ _ _ E1) as [_ Hc].
  destruct (IH c1) as (c2 & E2 & Hc2); [lia|lia|]. exists c2. split; [exact E2|].
  intros Hc0. apply Hc2. exact (count_segment_con _ _ _ _ Hc0 E1).
Qed.

(** The ring as segments. *)
Fixpoint locate_list (c : Counter) (l : list (Coordinate * Coordinate)) : res Z :=
  match l with
  | [] => Ok (get_location c)
  | (a, b) :: t => c' <- count_segment c b a ;; if con c' then Ok (get_location c') else locate_list c' t
  end.
Lemma segs_cons {A} (a b : A) l : segs (a :: b :: l) = (a, b) :: segs (b :: l).
Proof. reflexivity. Qed.
Lemma locate_vec_list p ring : locate_vec p ring = locate_list (counter_new p) (segs ring).
Proof.
  unfold locate_vec. destruct ring as [|a l]; [reflexivity|].
  replace (length (a :: l) - 1)%nat with (length l) by (cbn; lia).
  assert (Gen : forall l pre a c,
    bind (forR (length l) (length pre + 1) c (fun i c =>
      p1 <- idx (pre ++ a :: l) i ;; k <- usub i 1 ;; p2 <- idx (pre ++ a :: l) k ;;
      c <- count_segment c p1 p2 ;;
      if con c then Ok (inr (get_location c)) else Ok (inl c)))
      (fun o => match o with inl c => Ok (get_location c) | inr l => Ok l end) =
    locate_list c (segs (a :: l))).
  { clear. induction l as [|b l IH]; intros pre a c; [reflexivity|].
    cbn [length forR]. rewrite (idx_app_r pre _ 1). cbn [idx nth_error bind].
    unfold usub at 1. replace (1 <=? length pre + 1)%nat with true by (symmetry; apply Nat.leb_le; lia).
    cbn [bind]. replace (length pre + 1 - 1)%nat with (length pre + 0)%nat by lia.
    rewrite (idx_app_r pre _ 0). cbn [idx nth_error bind].
    rewrite segs_cons. cbn [locate_list].
    destruct (count_segment c b a) as [c'|]; [|reflexivity]. cbn [bind].
    destruct (con c'); cbn [bind]; [reflexivity|].
    specialize (IH (pre ++ [a]) b c'). rewrite <- app_assoc in IH. cbn [app] in IH.
    rewrite app_length in IH. cbn [length] in IH.
    replace (S (length pre + 1)) with (length pre + 1 + 1)%nat by lia. exact IH. }
  exact (Gen l [] a (counter_new p)).
Qed.
Lemma locate_list_all l : forall c, 0 <= ccount c -> ccount c + Z.of_nat (length l) <= i32_max ->
  exists c', count_all c l = Ok c' /\ (con c = false -> locate_list c l = Ok (get_location c')).
Proof.
  induction l as [|[a b] l IH]; intros c H0 H; cbn [length] in H; [exists c; split; [reflexivity|auto]|].
  cbn [count_all locate_list]. destruct (count_segment_total c b a) as (c1 & E1); [lia|]. rewrite E1. cbn [bind].
  destruct (count_segment_cnt _ _ _ _ E1) as [_ Hc].
  destruct (con c1) eqn:K.
  - destruct (count_all_total l c1) as (c2 & E2 & Hc2); [lia|lia|]. exists c2. split; [exact E2|].
    intros _. unfold get_location. rewrite K, (Hc2 K). reflexivity.
  - destruct (IH c1) as (c2 & E2 & L2); [lia|lia|]. exists c2. split; [exact E2|]. intros _. now apply L2.
Qed.
Lemma segs_length {A} (l : list A) : length (segs l) = (length l - 1)%nat.
Proof.
  induction l as [|a l IH]; [reflexivity|]. destruct l as [|b l]; [reflexivity|].
  rewrite segs_cons. cbn [length] in *. lia.
Qed.

(** ** One segment *)
Definition fin_pt (c : Coordinate) : Prop := fis_finite (cx c) = true /\ fis_finite (cy c) = true.
Definition oriented (p : Coordinate) (a b : Coordinate) : Prop :=
  is_sign (orient a b p) (det_pts a b p).
(** The segments [count_segment] asks the orientation of. *)
Definition asked (p a b : Coordinate) : Prop :=
  ((R_of (cy a) > R_of (cy p) /\ R_of (cy b) <= R_of (cy p)) \/ (R_of (cy b) > R_of (cy p) /\ R_of (cy a) <= R_of (cy p)))%R /\
  (R_of (cx p) <= R_of (cx a) \/ R_of (cx p) <= R_of (cx b))%R.
Ltac rb := repeat match goal with
  | |- context [Rlt_bool ?a ?b] => destruct (Rlt_bool_spec a b)
  | |- context [Rle_bool ?a ?b] => destruct (Rle_bool_spec a b)
  | |- context [Req_bool ?a ?b] => destruct (Req_bool_spec a b)
  end.
Ltac rb1 := match goal with
  | |- context [Rlt_bool ?a ?b] => destruct (Rlt_bool_spec a b)
  | |- context [Rle_bool ?a ?b] => destruct (Rle_bool_spec a b)
  | |- context [Req_bool ?a ?b] => destruct (Req_bool_spec a b)
  end.

Lemma conv_lt a b t p : (0 <= t <= 1 -> a < p -> b < p -> a + t * (b - a) < p)%R.
Proof.
  intros T A B. replace (a + t * (b - a))%R with ((1 - t) * a + t * b)%R by ring.
  destruct (Rle_lt_dec t 0) as [H|H].
  - replace t with 0%R by lra. lra.
  - assert (t * b < t * p)%R by (apply Rmult_lt_compat_l; lra).
    assert ((1 - t) * a <= (1 - t) * p)%R by (apply Rmult_le_compat_l; lra). lra.
Qed.
Lemma conv_gt a b t p : (0 <= t <= 1 -> p < a -> p < b -> p < a + t * (b - a))%R.
Proof.
  intros T A B. pose proof (conv_lt (- a) (- b) t (- p) T ltac:(lra) ltac:(lra)) as H.
  replace (- a + t * (- b - - a))%R with (- (a + t * (b - a)))%R in H by ring. lra.
Qed.
Lemma det3_at x1 y1 x2 y2 px py t : (py = y1 + t * (y2 - y1))%R ->
  (det3 x1 y1 x2 y2 px py = (y2 - y1) * ((x1 + t * (x2 - x1)) - px))%R.
Proof. intros ->. unfold det3. ring. Qed.
Lemma straddle_t y1 y2 py : ((y1 > py /\ y2 <= py) \/ (y2 > py /\ y1 <= py))%R ->
  exists t, (0 <= t <= 1 /\ py = y1 + t * (y2 - y1))%R.
Proof.
  intros H. assert (y2 - y1 <> 0)%R by lra. exists ((py - y1) / (y2 - y1))%R.
  split; [|field; assumption].
  assert ((py - y1) / (y2 - y1) * (y2 - y1) = py - y1)%R by (field; assumption).
  set (t := ((py - y1) / (y2 - y1))%R) in *. destruct H as [[A B]|[A B]]; split; nra.
Qed.

Lemma count_segment_spec c p1 p2 :
  fin_pt (cpt c) -> fin_pt p1 -> fin_pt p2 -> (asked (cpt c) p1 p2 -> oriented (cpt c) p1 p2) -> con c = false ->
  0 <= ccount c < i32_max ->
  exists c', count_segment c p1 p2 = Ok c' /\ cpt c' = cpt c /\
    ((con c' = true /\ on_seg (pt (cpt c)) (pt p1) (pt p2))
     \/ (con c' = false /\ ccount c' = ccount c /\ ~ crosses (pt (cpt c)) (pt p1) (pt p2) /\
         (on_seg (pt (cpt c)) (pt p1) (pt p2) -> pt (cpt c) = pt p1) /\ pt (cpt c) <> pt p2)
     \/ (con c' = false /\ ccount c' = ccount c + 1 /\ crosses (pt (cpt c)) (pt p1) (pt p2) /\
         ~ on_seg (pt (cpt c)) (pt p1) (pt p2) /\ pt (cpt c) <> pt p2)).
Proof.
  intros [Fx Fy] [F1x F1y] [F2x F2y] O C0 Cn.
  destruct c as [p n b]. cbn [cpt ccount con] in *. subst b.
  unfold count_segment. cbn [cpt ccount con].
  change (fgtb (cx p1) (cx p2)) with (fltb (cx p2) (cx p1)).
  change (fgtb (cy p1) (cy p)) with (fltb (cy p) (cy p1)).
  change (fgtb (cy p2) (cy p)) with (fltb (cy p) (cy p2)).
  change (fgeb (cx p)) with (fun m => fleb m (cx p)). cbv beta.
  rewrite !feqb_R, !fltb_R, !fleb_R by assumption.
  unfold asked, oriented, det_pts in O. unfold on_seg, crosses, pt. cbn [fst snd].
  set (px := R_of (cx p)) in *. set (py := R_of (cy p)) in *.
  set (x1 := R_of (cx p1)) in *. set (y1 := R_of (cy p1)) in *.
  set (x2 := R_of (cx p2)) in *. set (y2 := R_of (cy p2)) in *.
  set (o := orient p1 p2 p) in *. clearbody o.
  destruct (Rlt_bool x1 px && Rlt_bool x2 px) eqn:A.
  { apply andb_prop in A. destruct A as [A1 A2].
    destruct (Rlt_bool_spec x1 px); [|discriminate]. destruct (Rlt_bool_spec x2 px); [|discriminate].
    eexists. split; [reflexivity|]. split; [reflexivity|]. right; left. cbn [con ccount].
    split; [reflexivity|]. split; [reflexivity|]. split; [|split].
    - intros (_ & t & T & _ & X). pose proof (conv_lt x1 x2 t px T ltac:(assumption) ltac:(assumption)). lra.
    - intros (t & T & X & _). exfalso. pose proof (conv_lt x1 x2 t px T ltac:(assumption) ltac:(assumption)). lra.
    - intros E. injection E as E _. lra. }
  assert (NA : (px <= x1 \/ px <= x2)%R).
  { apply andb_false_iff in A. destruct A as [A|A];
    [destruct (Rlt_bool_spec x1 px)|destruct (Rlt_bool_spec x2 px)]; try discriminate; lra. }
  clear A.
  destruct (Req_bool px x2 && Req_bool py y2) eqn:B.
  { apply andb_prop in B. destruct B as [B1 B2].
    destruct (Req_bool_spec px x2); [|discriminate]. destruct (Req_bool_spec py y2); [|discriminate].
    eexists. split; [reflexivity|]. split; [reflexivity|]. left. split; [reflexivity|].
    exists 1%R. split; [lra|]. split; lra. }
  assert (NB : (px <> x2 \/ py <> y2)%R).
  { apply andb_false_iff in B. destruct B as [B|B];
    [destruct (Req_bool_spec px x2)|destruct (Req_bool_spec py y2)]; try discriminate; auto. }
  assert (NB' : (px, py) <> (x2, y2)) by (intros E; injection E as E1 E2; tauto).
  clear B.
  destruct (Req_bool y1 py && Req_bool y2 py) eqn:D.
  { apply andb_prop in D. destruct D as [D1 D2].
    destruct (Req_bool_spec y1 py) as [D|]; [|discriminate]. destruct (Req_bool_spec y2 py) as [D'|]; [|discriminate].
    clear D1 D2.
    assert (NC : ~ ((y1 > py /\ y2 <= py \/ y2 > py /\ y1 <= py) /\
       (exists t, 0 <= t <= 1 /\ py = y1 + t * (y2 - y1) /\ px < x1 + t * (x2 - x1)))%R) by (intros ([H|H] & _); lra).
    assert (On : forall lo hi, ((lo = x1 /\ hi = x2) \/ (lo = x2 /\ hi = x1))%R -> (lo <= px)%R -> (px <= hi)%R ->
      exists t, (0 <= t <= 1 /\ px = x1 + t * (x2 - x1) /\ py = y1 + t * (y2 - y1))%R).
    { intros lo hi H L U. destruct (Req_dec x1 x2) as [E|E].
      - exists 0%R. split; [lra|]. split; [|lra]. destruct H as [[-> ->]|[-> ->]]; lra.
      - exists ((px - x1) / (x2 - x1))%R.
        assert (Q : ((px - x1) / (x2 - x1) * (x2 - x1) = px - x1)%R) by (field; lra).
        set (t := ((px - x1) / (x2 - x1))%R) in *. split; [|split; nra].
        destruct H as [[-> ->]|[-> ->]]; split; nra. }
    destruct (Rlt_bool_spec x2 x1) as [X|X]; cbv zeta.
    - rewrite !fleb_R by assumption. fold x1 x2 px.
      destruct (Rle_bool_spec x2 px); [destruct (Rle_bool_spec px x1)|]; cbn [andb];
        (eexists; split; [reflexivity|]; split; [reflexivity|]).
      + left. split; [reflexivity|]. apply (On x2 x1); auto.
      + right; left. split; [reflexivity|]. split; [reflexivity|]. split; [exact NC|]. split; [|exact NB'].
        intros (t & T & X' & _). exfalso.
        first [pose proof (conv_lt x1 x2 t px T ltac:(lra) ltac:(lra)); lra
              |pose proof (conv_gt x1 x2 t px T ltac:(lra) ltac:(lra)); lra].
      + right; left. split; [reflexivity|]. split; [reflexivity|]. split; [exact NC|]. split; [|exact NB'].
        intros (t & T & X' & _). exfalso.
        first [pose proof (conv_lt x1 x2 t px T ltac:(lra) ltac:(lra)); lra
              |pose proof (conv_gt x1 x2 t px T ltac:(lra) ltac:(lra)); lra].
    - rewrite !fleb_R by assumption. fold x1 x2 px.
      destruct (Rle_bool_spec x1 px); [destruct (Rle_bool_spec px x2)|]; cbn [andb];
        (eexists; split; [reflexivity|]; split; [reflexivity|]).
      + left. split; [reflexivity|]. apply (On x1 x2); auto.
      + right; left. split; [reflexivity|]. split; [reflexivity|]. split; [exact NC|]. split; [|exact NB'].
        intros (t & T & X' & _). exfalso.
        first [pose proof (conv_lt x1 x2 t px T ltac:(lra) ltac:(lra)); lra
              |pose proof (conv_gt x1 x2 t px T ltac:(lra) ltac:(lra)); lra].
      + right; left. split; [reflexivity|]. split; [reflexivity|]. split; [exact NC|]. split; [|exact NB'].
        intros (t & T & X' & _). exfalso.
        first [pose proof (conv_lt x1 x2 t px T ltac:(lra) ltac:(lra)); lra
              |pose proof (conv_gt x1 x2 t px T ltac:(lra) ltac:(lra)); lra]. }
  assert (ND : (y1 <> py \/ y2 <> py)%R).
  { apply andb_false_iff in D. destruct D as [D|D];
    [destruct (Req_bool_spec y1 py)|destruct (Req_bool_spec y2 py)]; try discriminate; auto. }
  clear D.
  destruct (Rlt_bool py y1 && Rle_bool y2 py || Rlt_bool py y2 && Rle_bool y1 py) eqn:S.
  - assert (St : ((y1 > py /\ y2 <= py) \/ (y2 > py /\ y1 <= py))%R).
    { apply orb_prop in S. destruct S as [S|S]; apply andb_prop in S; destruct S as [S1 S2].
      - destruct (Rlt_bool_spec py y1); [|discriminate]. destruct (Rle_bool_spec y2 py); [|discriminate]. left; split; lra.
      - destruct (Rlt_bool_spec py y2); [|discriminate]. destruct (Rle_bool_spec y1 py); [|discriminate]. right; split; lra. }
    clear S. specialize (O (conj St NA)). destruct (straddle_t y1 y2 py St) as (t & T & Yt).
    pose proof (det3_at x1 y1 x2 y2 px py t Yt) as Dt. rewrite Dt in O. clear Dt.
    assert (Ut : forall t', (py = y1 + t' * (y2 - y1))%R -> t' = t).
    { intros t' Y'. apply Rmult_eq_reg_r with (y2 - y1)%R; lra. }
    set (X := (x1 + t * (x2 - x1))%R) in *.
    assert (OnX : (px = X)%R -> exists t, (0 <= t <= 1 /\ px = x1 + t * (x2 - x1) /\ py = y1 + t * (y2 - y1))%R).
    { intros E. exists t. split; [exact T|]. split; [exact E|exact Yt]. }
    assert (NOn : (px <> X)%R -> ~ exists t, (0 <= t <= 1 /\ px = x1 + t * (x2 - x1) /\ py = y1 + t * (y2 - y1))%R).
    { intros E (t' & T' & X' & Y'). apply Ut in Y'. subst t'. exact (E X'). }
    assert (CrX : (px < X)%R -> (y1 > py /\ y2 <= py \/ y2 > py /\ y1 <= py)%R /\
       (exists t, 0 <= t <= 1 /\ py = y1 + t * (y2 - y1) /\ px < x1 + t * (x2 - x1))%R).
    { intros E. split; [exact St|]. exists t. split; [exact T|]. split; [exact Yt|exact E]. }
    assert (NCr : ~ (px < X)%R -> ~ ((y1 > py /\ y2 <= py \/ y2 > py /\ y1 <= py)%R /\
       (exists t, 0 <= t <= 1 /\ py = y1 + t * (y2 - y1) /\ px < x1 + t * (x2 - x1))%R)).
    { intros E (_ & t' & T' & Y' & X'). apply Ut in Y'. subst t'. exact (E X'). }
    assert (Inc : forall (u : bool), (u = true -> (px < X)%R) -> (u = false -> (X < px)%R) ->
      exists c', (if u then k <- i32_chk (n + 1) ;; Ok (mkCounter p k false) else Ok (mkCounter p n false)) = Ok c' /\
       cpt c' = p /\
       ((con c' = true /\ (exists t, 0 <= t <= 1 /\ px = x1 + t * (x2 - x1) /\ py = y1 + t * (y2 - y1))%R)
        \/ (con c' = false /\ ccount c' = n /\ ~ ((y1 > py /\ y2 <= py \/ y2 > py /\ y1 <= py)%R /\
           (exists t, 0 <= t <= 1 /\ py = y1 + t * (y2 - y1) /\ px < x1 + t * (x2 - x1))%R) /\
           ((exists t, 0 <= t <= 1 /\ px = x1 + t * (x2 - x1) /\ py = y1 + t * (y2 - y1))%R -> (px, py) = (x1, y1)) /\
           (px, py) <> (x2, y2))
        \/ (con c' = false /\ ccount c' = n + 1 /\ ((y1 > py /\ y2 <= py \/ y2 > py /\ y1 <= py)%R /\
           (exists t, 0 <= t <= 1 /\ py = y1 + t * (y2 - y1) /\ px < x1 + t * (x2 - x1))%R) /\
           ~ (exists t, 0 <= t <= 1 /\ px = x1 + t * (x2 - x1) /\ py = y1 + t * (y2 - y1))%R /\
           (px, py) <> (x2, y2)))).
    { intros [|] H1 H2.
      - unfold i32_chk. replace ((i32_min <=? n + 1) && (n + 1 <=? i32_max)) with true
          by (symmetry; apply andb_true_iff; split; apply Z.leb_le; unfold i32_min, i32_max in *; lia).
        cbn [bind]. eexists. split; [reflexivity|]. split; [reflexivity|]. right; right.
        specialize (H1 eq_refl). split; [reflexivity|]. split; [reflexivity|]. split; [auto|]. split; [apply NOn; lra|exact NB'].
      - eexists. split; [reflexivity|]. split; [reflexivity|]. right; left. specialize (H2 eq_refl).
        split; [reflexivity|]. split; [reflexivity|]. split; [apply NCr; lra|]. split; [|exact NB'].
        intros H. exfalso. revert H. apply NOn. lra. }
    destruct O as [(-> & O)|[(-> & O)|(-> & O)]].
    + cbn [Z.eqb Z.opp]. destruct (Rlt_bool_spec y2 y1) as [Y|Y]; cbn [Z.eqb].
      * apply (Inc false); [discriminate|]. intros _. nra.
      * apply (Inc true); [|discriminate]. intros _. nra.
    + cbn [Z.eqb]. eexists. split; [reflexivity|]. split; [reflexivity|]. left. split; [reflexivity|].
      apply OnX. nra.
    + cbn [Z.eqb Z.opp]. destruct (Rlt_bool_spec y2 y1) as [Y|Y]; cbn [Z.eqb].
      * apply (Inc true); [|discriminate]. intros _. nra.
      * apply (Inc false); [discriminate|]. intros _. nra.
  - assert (NSt : ~ ((y1 > py /\ y2 <= py) \/ (y2 > py /\ y1 <= py))%R).
    { apply orb_false_iff in S. destruct S as [S1 S2]. apply andb_false_iff in S1, S2.
      destruct (Rlt_bool_spec py y1), (Rle_bool_spec y2 py), (Rlt_bool_spec py y2), (Rle_bool_spec y1 py); 
        destruct S1, S2; try discriminate; lra. }
    eexists. split; [reflexivity|]. split; [reflexivity|]. right; left. cbn [con ccount].
    split; [reflexivity|]. split; [reflexivity|]. split; [intros (H & _); exact (NSt H)|]. split; [|exact NB'].
    intros (t & T & X & Y).
    assert (t = 0 \/ t = 1)%R as [-> | ->].
    { destruct (Rle_lt_dec y1 py), (Rle_lt_dec y2 py); try (exfalso; apply NSt; lra).
      - destruct (Req_dec t 0); [left; assumption|]. destruct (Req_dec t 1); [right; assumption|]. exfalso.
        assert (0 <= (1 - t) * (py - y1))%R by (apply Rmult_le_pos; lra).
        assert (0 <= t * (py - y2))%R by (apply Rmult_le_pos; lra).
        assert ((1 - t) * (py - y1) + t * (py - y2) = 0)%R by lra.
        assert ((1 - t) * (py - y1) = 0)%R as Q1 by lra. assert (t * (py - y2) = 0)%R as Q2 by lra.
        apply Rmult_integral in Q1, Q2. lra.
      - exfalso. pose proof (conv_gt y1 y2 t py T ltac:(lra) ltac:(lra)). lra. }
    + rewrite X, Y. f_equal; lra.
    + exfalso. apply NB'. rewrite X, Y. f_equal; lra.
Qed.

(** ** Rings *)
Lemma on_seg_sym p a b : on_seg p a b -> on_seg p b a.
Proof. intros (t & T & X & Y). exists (1 - t)%R. split; [lra|]. split; lra. Qed.
Lemma crosses_sym p a b : crosses p a b -> crosses p b a.
Proof.
  intros (S & t & T & Y & X). split; [tauto|]. exists (1 - t)%R. split; [lra|]. split; lra.
Qed.
Lemma count_of_fun {A} (P : A -> Prop) l k k' : count_of P l k -> count_of P l k' -> k = k'.
Proof.
  intros H. revert k'. induction H as [|a l k Pa H IH|a l k Pa H IH]; intros k' H'; inversion H'; subst; auto; try contradiction.
Qed.
Lemma count_of_ext {A} (P Q : A -> Prop) l k : (forall a, P a <-> Q a) -> count_of P l k -> count_of Q l k.
Proof.
  intros E H. induction H as [|a l k Pa H IH|a l k Pa H IH]; [constructor| |].
  - constructor; [now apply E|assumption].
  - constructor; [now rewrite <- E|assumption].
Qed.
Lemma count_of_map {A B} (f : A -> B) (P : B -> Prop) l k :
  count_of (fun a => P (f a)) l k <-> count_of P (map f l) k.
Proof.
  split.
  - intros H. induction H; cbn [map]; [constructor|now constructor|now apply co_no].
  - revert k. induction l as [|a l IH]; intros k H; cbn [map] in H; inversion H; subst; [constructor| |].
    + constructor; auto.
    + apply co_no; auto.
Qed.
Lemma count_of_perm {A} (P : A -> Prop) l l' k : Permutation l l' -> count_of P l k -> count_of P l' k.
Proof.
  intros E. revert k. induction E; intros k H.
  - exact H.
  - inversion H; subst; [constructor|apply co_no]; auto.
  - inversion H as [|? ? ? Pa H1|? ? ? Pa H1]; subst; inversion H1; subst;
      repeat first [assumption | apply co_yes; [assumption|] | apply co_no; [assumption|]].
  - auto.
Qed.
Lemma segs_map {A B} (f : A -> B) l : segs (map f l) = map (fun s => (f (fst s), f (snd s))) (segs l).
Proof.
  induction l as [|a l IH]; [reflexivity|]. destruct l as [|b l]; [reflexivity|].
  rewrite segs_cons. cbn [map fst snd]. cbn [map] in IH. rewrite segs_cons. now rewrite IH.
Qed.
Lemma segs_next {A} (l : list A) x b d : In (x, b) (segs l) -> (exists y, In (b, y) (segs l)) \/ b = last l d.
Proof.
  induction l as [|a l IH]; [contradiction|]. destruct l as [|c l]; [contradiction|].
  rewrite segs_cons. intros [E|H].
  - injection E as <- <-. destruct l as [|e l]; [right; reflexivity|].
    left. exists e. right. rewrite segs_cons. now left.
  - destruct (IH H) as [(y & Hy)|Hl]; [left; exists y; now right|right]. exact Hl.
Qed.
Lemma segs_In {A} (l : list A) a b : In (a, b) (segs l) -> In a l /\ In b l.
Proof.
  induction l as [|c l IH]; [contradiction|]. destruct l as [|e l]; [contradiction|].
  rewrite segs_cons. intros [E|H].
  - injection E as <- <-. cbn. auto.
  - apply IH in H. cbn in *. tauto.
Qed.

Definition parity (z : Z) : Z := if Z.rem z 2 =? 1 then INTERIOR else EXTERIOR.
Lemma locate_list_spec p l : fin_pt p ->
  (forall a b, In (a, b) l -> fin_pt a /\ fin_pt b /\ (asked p b a -> oriented p b a)) ->
  forall c, cpt c = p -> con c = false -> 0 <= ccount c -> ccount c + Z.of_nat (length l) <= i32_max ->
  (locate_list c l = Ok BOUNDARY /\ exists a b, In (a, b) l /\ on_seg (pt p) (pt a) (pt b))
  \/ (exists k, count_of (fun s => crosses (pt p) (pt (fst s)) (pt (snd s))) l k /\
        locate_list c l = Ok (parity (ccount c + Z.of_nat k)) /\
        forall a b, In (a, b) l -> (on_seg (pt p) (pt a) (pt b) -> pt p = pt b) /\ pt p <> pt a).
Proof.
  intros Fp. induction l as [|[a b] l IH]; intros HO c Ec C0 N0 Nn.
  - right. exists 0%nat. split; [constructor|]. split; [|contradiction].
    cbn [locate_list]. unfold get_location, parity. rewrite C0. cbn. now rewrite Z.add_0_r.
  - cbn [length] in Nn. destruct (HO a b) as (Fa & Fb & Ob); [now left|].
    destruct (count_segment_spec c b a) as (c' & E & Ec' & Cs); try assumption; try lia.
    { now rewrite Ec. } { now rewrite Ec. }
    rewrite Ec in *. cbn [locate_list]. rewrite E. cbn [bind].
    destruct Cs as [(Con & On)|[(Con & Cnt & NC & NO & NP)|(Con & Cnt & Cr & NO & NP)]]; rewrite Con.
    + left. unfold get_location. rewrite Con. split; [reflexivity|].
      exists a, b. split; [now left|]. now apply on_seg_sym.
    + destruct (IH (fun x y H => HO x y (or_intror H)) c' Ec' Con) as [(L & x & y & I & O)|(k & K & L & A)];
        [lia|lia|left|right].
      * split; [exact L|]. exists x, y. split; [now right|exact O].
      * exists k. split; [apply co_no; [|exact K]; cbn; intros H; now apply NC, crosses_sym|].
        split; [rewrite L; do 2 f_equal; lia|].
        intros x y [Exy|I]; [injection Exy as <- <-|now apply A].
        split; [intros H; apply NO; now apply on_seg_sym|exact NP].
    + destruct (IH (fun x y H => HO x y (or_intror H)) c' Ec' Con) as [(L & x & y & I & O)|(k & K & L & A)];
        [lia|lia|left|right].
      * split; [exact L|]. exists x, y. split; [now right|exact O].
      * exists (S k). split; [apply co_yes; [|exact K]; cbn; now apply crosses_sym|].
        split; [rewrite L; do 2 f_equal; lia|].
        intros x y [Exy|I]; [injection Exy as <- <-|now apply A].
        split; [intros H; exfalso; apply NO; now apply on_seg_sym|exact NP].
Qed.
Lemma parity_odd k : parity (Z.of_nat k) = if Nat.odd k then INTERIOR else EXTERIOR.
Proof.
  unfold parity. rewrite Z.rem_mod_nonneg by lia. rewrite <- Nat.bit0_odd.
  replace (Nat.testbit k 0) with (Z.of_nat k mod 2 =? 1); [reflexivity|].
  rewrite Nat.bit0_odd. destruct (Nat.Even_or_Odd k) as [[m ->]|[m ->]].
  - replace (Nat.odd (2 * m)) with false by (symmetry; rewrite Nat.odd_mul; reflexivity).
    replace (Z.of_nat (2 * m) mod 2) with 0; [reflexivity|].
    rewrite Nat2Z.inj_mul, Z.mul_comm, Z.mod_mul; lia.
  - replace (Nat.odd (2 * m + 1)) with true
      by (symmetry; rewrite Nat.odd_add, Nat.odd_mul; reflexivity).
    replace (Z.of_nat (2 * m + 1) mod 2) with 1; [reflexivity|].
    rewrite Nat2Z.inj_add, Nat2Z.inj_mul, Z.add_comm, Z.mul_comm, Z.mod_add by lia. reflexivity.
Qed.

Definition ring_closed (ring : list Coordinate) : Prop :=
  exists a m z, ring = a :: m ++ [z] /\ pt a = pt z.
Definition located (p : Coordinate) (ring : list Coordinate) : Prop :=
  fin_pt p /\ (forall a b, In (a, b) (segs ring) -> fin_pt a /\ fin_pt b /\ (asked p b a -> oriented p b a)) /\
  ring_closed ring /\ Z.of_nat (length ring) <= i32_max.
Lemma on_chain_map p ring : on_chain p (map pt ring) <->
  exists a b, In (a, b) (segs ring) /\ on_seg p (pt a) (pt b).
Proof.
  unfold on_chain. rewrite segs_map. split.
  - intros (a & b & I & O). apply in_map_iff in I. destruct I as ([x y] & E & I). cbn in E.
    injection E as <- <-. eauto.
  - intros (a & b & I & O). exists (pt a), (pt b). split; [|exact O]. apply in_map_iff. exists (a, b). auto.
Qed.
Lemma locate_ring_spec p ring : located p ring ->
  (on_chain (pt p) (map pt ring) -> locate_vec p ring = Ok BOUNDARY) /\
  (~ on_chain (pt p) (map pt ring) -> exists k, crossings (pt p) (map pt ring) k /\
     locate_vec p ring = Ok (if Nat.odd k then INTERIOR else EXTERIOR)).
Proof.
  intros (Fp & HO & (a & m & z & Er & Cl) & Ln).
  rewrite locate_vec_list, on_chain_map.
  destruct (locate_list_spec p (segs ring) Fp HO (counter_new p)) as [(L & On)|(k & K & L & A)];
    try reflexivity.
  - cbn [counter_new ccount]. rewrite segs_length. lia.
  - split; [auto|]. intros N. contradiction.
  - assert (NOn : ~ exists a b, In (a, b) (segs ring) /\ on_seg (pt p) (pt a) (pt b)).
    { intros (x & y & I & O). destruct (A x y I) as [A1 _]. specialize (A1 O).
      destruct (segs_next ring x y z I) as [(w & Iw)|El].
      - destruct (A y w Iw) as [_ A2]. contradiction.
      - assert (y = z) as -> by (rewrite El, Er; change (a :: m ++ [z]) with ((a :: m) ++ [z]); apply last_last).
        assert (exists w, In (a, w) (segs ring)) as (w & Iw).
        { rewrite Er. destruct m as [|b m]; [exists z; now left|exists b; now left]. }
        destruct (A a w Iw) as [_ A2]. congruence. }
    split; [intros H; contradiction|]. intros _. exists k. split.
    + unfold crossings. rewrite segs_map. now apply count_of_map.
    + rewrite L. cbn [counter_new ccount]. now rewrite Z.add_0_l, parity_odd.
Qed.

(** ** Reversal and rotation *)
Lemma segs_app {A} (l1 l2 : list A) a : segs (l1 ++ a :: l2) = segs (l1 ++ [a]) ++ segs (a :: l2).
Proof.
  induction l1 as [|b l1 IH]; [reflexivity|]. destruct l1 as [|c l1]; [reflexivity|].
  cbn [app] in *. rewrite !segs_cons. cbn [app]. now rewrite IH.
Qed.
Definition swap {A} (s : A * A) : A * A := (snd s, fst s).
Lemma segs_rev {A} (l : list A) : Permutation (segs (rev l)) (map swap (segs l)).
Proof.
  induction l as [|a l IH]; [constructor|]. destruct l as [|b l]; [constructor|].
  cbn [rev] in *. rewrite <- app_assoc. cbn [app]. rewrite segs_app.
  rewrite segs_cons. cbn [map]. change (segs [b; a]) with [(b, a)]. unfold swap at 1. cbn [fst snd].
  etransitivity; [apply Permutation_app_comm|]. cbn [app]. constructor. exact IH.
Qed.
Lemma segs_rotate {A} (a : A) l b m :
  Permutation (segs ((a :: l) ++ (b :: m) ++ [a])) (segs ((b :: m) ++ (a :: l) ++ [b])).
Proof.
  change ((a :: l) ++ (b :: m) ++ [a]) with ((a :: l) ++ b :: (m ++ [a])).
  change ((b :: m) ++ (a :: l) ++ [b]) with ((b :: m) ++ a :: (l ++ [b])).
  rewrite segs_app, (segs_app (b :: m)). apply Permutation_app_comm.
Qed.
Lemma on_chain_perm p l l' : Permutation (segs l) (segs l') -> on_chain p l -> on_chain p l'.
Proof. intros P (a & b & I & O). exists a, b. split; [|exact O]. eapply Permutation_in; eauto. Qed.
Lemma on_chain_rev p l : on_chain p l -> on_chain p (rev l).
Proof.
  intros (a & b & I & O). exists b, a. split; [|now apply on_seg_sym].
  eapply Permutation_in; [symmetry; apply segs_rev|]. apply in_map_iff. now exists (a, b).
Qed.
Lemma crossings_rev p l k : crossings p l k -> crossings p (rev l) k.
Proof.
  intros H. unfold crossings in *. eapply count_of_perm; [symmetry; apply segs_rev|].
  apply count_of_map. eapply count_of_ext; [|exact H]. intros [a b]. cbn. split; apply crosses_sym.
Qed.
Lemma located_unique p ring loc : located p ring ->
  (on_chain (pt p) (map pt ring) -> loc = BOUNDARY) ->
  (~ on_chain (pt p) (map pt ring) -> exists k, crossings (pt p) (map pt ring) k /\
     loc = (if Nat.odd k then INTERIOR else EXTERIOR)) ->
  locate_vec p ring = Ok loc.
Proof.
  intros H A B. destruct (locate_ring_spec p ring H) as [C D].
  destruct (Classical_Prop.classic (on_chain (pt p) (map pt ring))) as [O|O].
  - rewrite (A O). auto.
  - destruct (B O) as (k & K & ->). destruct (D O) as (k' & K' & ->).
    now rewrite (count_of_fun _ _ _ _ K K').
Qed.

(** ** Outside the envelope *)
Definition above (p a : R * R) : bool := Rlt_bool (snd p) (snd a).
Lemma crossings_left p l k a z : (forall b, In b (a :: l) -> fst p < fst b)%R ->
  last (a :: l) z = z -> crossings p (a :: l) k -> (l = [] -> z = a) ->
  Nat.odd k = xorb (above p a) (above p z).
Proof.
  revert a k. induction l as [|b l IH]; intros a k H Hz K Hn.
  - rewrite (Hn eq_refl). inversion K; subst. now rewrite xorb_nilpotent.
  - unfold crossings in K. rewrite segs_cons in K.
    assert (IH' : forall k', count_of (fun s => crosses p (fst s) (snd s)) (segs (b :: l)) k' ->
      Nat.odd k' = xorb (above p b) (above p z)).
    { intros k' K'. apply IH; auto.
      - intros c Hc. apply H. now right.
      - intros ->. cbn in Hz. congruence. }
    pose proof (H a (or_introl eq_refl)) as Ha. pose proof (H b (or_intror (or_introl eq_refl))) as Hb.
    inversion K as [|? ? k' Cr K' |? ? ? Cr K']; subst; specialize (IH' _ K').
    + rewrite Nat.odd_succ, <- Nat.negb_odd, IH'. destruct Cr as (S & _). cbn [fst snd] in S. unfold above.
      destruct (Rlt_bool_spec (snd p) (snd a)), (Rlt_bool_spec (snd p) (snd b)), (Rlt_bool (snd p) (snd z)); try reflexivity; lra.
    + rewrite IH'. f_equal. cbn [fst snd] in Cr. unfold above.
      destruct (Rlt_bool_spec (snd p) (snd a)), (Rlt_bool_spec (snd p) (snd b)); try reflexivity; exfalso; apply Cr.
      * destruct (straddle_t (snd a) (snd b) (snd p)) as (t & T & Y); [lra|].
        split; [lra|]. exists t. split; [exact T|]. split; [exact Y|]. apply conv_gt; assumption.
      * destruct (straddle_t (snd a) (snd b) (snd p)) as (t & T & Y); [lra|].
        split; [lra|]. exists t. split; [exact T|]. split; [exact Y|]. apply conv_gt; assumption.
Qed.
Lemma count_none {A} (P : A -> Prop) l : (forall a, In a l -> ~ P a) -> count_of P l 0.
Proof. induction l as [|a l IH]; intros H; [constructor|]. apply co_no; [apply H; now left|apply IH; intros; apply H; now right]. Qed.
Definition beside (p : R * R) (l : list (R * R)) : Prop :=
  ((forall b, In b l -> fst p < fst b) \/ (forall b, In b l -> fst b < fst p) \/
   (forall b, In b l -> snd p < snd b) \/ (forall b, In b l -> snd b < snd p))%R.
Lemma beside_off p l : beside p l -> ~ on_chain p l.
Proof.
  intros H (a & b & I & (t & T & X & Y)). apply segs_In in I. destruct I as [Ia Ib].
  destruct H as [H|[H|[H|H]]]; pose proof (H a Ia); pose proof (H b Ib).
  - pose proof (conv_gt (fst a) (fst b) t (fst p) T ltac:(assumption) ltac:(assumption)). lra.
  - pose proof (conv_lt (fst a) (fst b) t (fst p) T ltac:(assumption) ltac:(assumption)). lra.
  - pose proof (conv_gt (snd a) (snd b) t (snd p) T ltac:(assumption) ltac:(assumption)). lra.
  - pose proof (conv_lt (snd a) (snd b) t (snd p) T ltac:(assumption) ltac:(assumption)). lra.
Qed.
Lemma beside_even p a m k : beside p (a :: m ++ [a]) -> crossings p (a :: m ++ [a]) k -> Nat.odd k = false.
Proof.
  intros [H|[H|[H|H]]] K.
  1: { rewrite (crossings_left p (m ++ [a]) k a a); auto.
       - apply xorb_nilpotent.
       - change (a :: m ++ [a]) with ((a :: m) ++ [a]). apply last_last. }
  all: assert (k = 0%nat) as ->; [|reflexivity]; apply (count_of_fun _ _ _ _ K), count_none;
    intros [x y] I (S & t & T & Y & X); cbn [fst snd] in *; apply segs_In in I; destruct I as [Ia Ib];
    pose proof (H x Ia); pose proof (H y Ib).
  - pose proof (conv_lt (fst x) (fst y) t (fst p) T ltac:(assumption) ltac:(assumption)). lra.
  - lra.
  - lra.
Qed.

(** ** On a segment *)
Lemma box3_R p0 p1 p : fin_pt p -> fin_pt p0 -> fin_pt p1 ->
  intersects_3 p0 p1 p = true <->
  (Rmin (R_of (cx p0)) (R_of (cx p1)) <= R_of (cx p) <= Rmax (R_of (cx p0)) (R_of (cx p1)) /\
   Rmin (R_of (cy p0)) (R_of (cy p1)) <= R_of (cy p) <= Rmax (R_of (cy p0)) (R_of (cy p1)))%R.
Proof.
  intros [Fx Fy] [F0x F0y] [F1x F1y].
  assert (L : forall a b x, fis_finite a = true -> fis_finite b = true -> fis_finite x = true ->
    fgeb x (if fltb a b then a else b) && fleb x (if fgtb a b then a else b) = true <->
    (Rmin (R_of a) (R_of b) <= R_of x <= Rmax (R_of a) (R_of b))%R).
  { intros a b x Fa Fb Fx'. change (fgtb a b) with (fltb b a). rewrite !fltb_R by assumption.
    change (fgeb x) with (fun y => fleb y x). cbv beta.
    unfold Rmin, Rmax.
    destruct (Rlt_bool_spec (R_of a) (R_of b)), (Rlt_bool_spec (R_of b) (R_of a)), (Rle_dec (R_of a) (R_of b));
      try lra; rewrite !fleb_R by assumption; rewrite andb_true_iff;
      match goal with |- (Rle_bool ?u ?v = true /\ Rle_bool ?w ?z = true) <-> _ =>
        destruct (Rle_bool_spec u v), (Rle_bool_spec w z) end; split; intros; try split; try reflexivity; try lra;
      destruct H1; try discriminate; lra. }
  unfold intersects_3. cbv zeta.
  rewrite <- (L (cx p0) (cx p1) (cx p)), <- (L (cy p0) (cy p1) (cy p)) by assumption.
  rewrite <- andb_true_iff.
  match goal with |- (if ?b then true else false) = true <-> _ => destruct b; tauto end.
Qed.
Lemma box_on_seg x0 y0 x1 y1 px py :
  (Rmin x0 x1 <= px <= Rmax x0 x1 -> Rmin y0 y1 <= py <= Rmax y0 y1 ->
   det3 x0 y0 x1 y1 px py = 0 -> on_seg (px, py) (x0, y0) (x1, y1))%R.
Proof.
  intros X Y D. unfold det3 in D. unfold on_seg. cbn [fst snd].
  assert (MM : forall a b c, (Rmin a b <= c <= Rmax a b -> a <> b -> 0 <= (c - a) / (b - a) <= 1)%R).
  { clear. intros a b c H N.
    assert (E : ((c - a) / (b - a) * (b - a) = c - a)%R) by (field; lra).
    set (t := ((c - a) / (b - a))%R) in *. clearbody t. unfold Rmin, Rmax in H.
    destruct (Rle_dec a b); split; try nra. }
  destruct (Req_dec x0 x1) as [Ex|Nx].
  - destruct (Req_dec y0 y1) as [Ey|Ny].
    + exists 0%R. subst. unfold Rmin, Rmax in X, Y. destruct (Rle_dec x1 x1), (Rle_dec y1 y1); lra.
    + exists ((py - y0) / (y1 - y0))%R. split; [now apply MM|]. subst x1. unfold Rmin, Rmax in X.
      destruct (Rle_dec x0 x0); try lra. split; [lra|]. field. lra.
  - exists ((px - x0) / (x1 - x0))%R. split; [now apply MM|]. split; [field; lra|].
    apply Rmult_eq_reg_r with (x1 - x0)%R; [|lra]. field_simplify; [|lra]. lra.
Qed.
Lemma on_seg_box x0 y0 x1 y1 px py : (on_seg (px, py) (x0, y0) (x1, y1) ->
  Rmin x0 x1 <= px <= Rmax x0 x1 /\ Rmin y0 y1 <= py <= Rmax y0 y1 /\ det3 x0 y0 x1 y1 px py = 0)%R.
Proof.
  intros (t & T & X & Y). cbn [fst snd] in *.
  assert (MM : forall a b, (Rmin a b <= a + t * (b - a) <= Rmax a b)%R).
  { clear - T. intros a b. unfold Rmin, Rmax. destruct (Rle_dec a b); nra. }
  rewrite X, Y. split; [apply MM|]. split; [apply MM|]. unfold det3. ring.
Qed.
Lemma is_on_segment_spec p p0 p1 : fin_pt p -> fin_pt p0 -> fin_pt p1 -> oriented p p0 p1 ->
  is_on_segment p p0 p1 = true <-> on_seg (pt p) (pt p0) (pt p1).
Proof.
  intros Fp F0 F1 O. unfold is_on_segment, pt.
  pose proof (box3_R p0 p1 p Fp F0 F1) as B. unfold oriented, det_pts in O.
  set (px := R_of (cx p)) in *. set (py := R_of (cy p)) in *.
  set (x0 := R_of (cx p0)) in *. set (y0 := R_of (cy p0)) in *.
  set (x1 := R_of (cx p1)) in *. set (y1 := R_of (cy p1)) in *.
  destruct (intersects_3 p0 p1 p); cbn [negb].
  - destruct (proj1 B eq_refl) as [Bx By_].
    assert (Zo : (0 =? orient p0 p1 p) = true <-> (det3 x0 y0 x1 y1 px py = 0)%R).
    { destruct O as [(-> & O)|[(-> & O)|(-> & O)]]; cbn; split; intros H; try discriminate; try lra; reflexivity. }
    destruct (equals_2d p p0) eqn:E.
    + split; [intros _|reflexivity]. rewrite equals_2d_eqb, !feqb_R in E by (apply Fp || apply F0).
      fold px py x0 y0 in E. apply andb_prop in E. destruct E as [E1 E2].
      destruct (Req_bool_spec px x0); [|discriminate]. destruct (Req_bool_spec py y0); [|discriminate].
      exists 0%R. cbn [fst snd]. split; [lra|]. split; lra.
    + rewrite Zo. split; [now apply box_on_seg|]. intros H. now apply on_seg_box in H.
  - split; [discriminate|]. intros H. apply on_seg_box in H. destruct H as (Hx & Hy & _).
    apply B. split; assumption.
Qed.
Lemma is_on_line_vec_list p line :
  is_on_line_vec p line = Ok (existsb (fun s => is_on_segment p (fst s) (snd s)) (segs line)).
Proof.
  unfold is_on_line_vec. destruct line as [|a l]; [reflexivity|].
  replace (length (a :: l) - 1)%nat with (length l) by (cbn; lia).
  assert (Gen : forall l pre a,
    bind (forR (length l) (length pre + 1) tt (fun i s =>
      k <- usub i 1 ;; p0 <- idx (pre ++ a :: l) k ;; p1 <- idx (pre ++ a :: l) i ;;
      if is_on_segment p p0 p1 then Ok (inr true) else Ok (inl s)))
      (fun o => match o with inl _ => Ok false | inr b => Ok b end) =
    Ok (existsb (fun s => is_on_segment p (fst s) (snd s)) (segs (a :: l)))).
  { clear. induction l as [|b l IH]; intros pre a; [reflexivity|].
    cbn [length forR]. unfold usub at 1.
    replace (1 <=? length pre + 1)%nat with true by (symmetry; apply Nat.leb_le; lia).
    cbn [bind]. replace (length pre + 1 - 1)%nat with (length pre + 0)%nat by lia.
    rewrite (idx_app_r pre _ 0), (idx_app_r pre _ 1). cbn [idx nth_error bind].
    rewrite segs_cons. cbn [existsb fst snd].
    destruct (is_on_segment p a b); cbn [bind orb]; [reflexivity|].
    specialize (IH (pre ++ [a]) b). rewrite <- app_assoc in IH. cbn [app] in IH.
    rewrite app_length in IH. cbn [length] in IH.
    replace (S (length pre + 1)) with (length pre + 1 + 1)%nat by lia. exact IH. }
  exact (Gen l [] a).
Qed.
Lemma is_on_segment_xy p a b a' b' : cx a = cx a' -> cy a = cy a' -> cx b = cx b' -> cy b = cy b' ->
  is_on_segment p a b = is_on_segment p a' b'.
Proof. intros A B C D. unfold is_on_segment, intersects_3, equals_2d, orient. now rewrite A, B, C, D. Qed.
Lemma is_on_line_seq_vec p s : is_on_line_seq p s = is_on_line_vec p (scoords s).
Proof.
  unfold is_on_line_seq, is_on_line_vec. fold (seq_size s).
  assert (Gen : forall n lo p0 p1, (1 <= lo)%nat -> (lo + n <= seq_size s)%nat ->
    bind (forR n lo (p0, p1) (fun i '(p0, p1) =>
      k <- usub i 1 ;;
      p0 <- seq_coord_into s k p0 ;; p1 <- seq_coord_into s i p1 ;;
      if is_on_segment p p0 p1 then Ok (inr true) else Ok (inl (p0, p1))))
      (fun o => match o with inl _ => Ok false | inr b => Ok b end) =
    bind (forR n lo tt (fun i u =>
      k <- usub i 1 ;; p0 <- idx (scoords s) k ;; p1 <- idx (scoords s) i ;;
      if is_on_segment p p0 p1 then Ok (inr true) else Ok (inl u)))
      (fun o => match o with inl _ => Ok false | inr b => Ok b end)).
  { induction n as [|n IH]; intros lo p0 p1 H1 H2; [reflexivity|].
    cbn [forR]. unfold usub. replace (1 <=? lo)%nat with true by (symmetry; apply Nat.leb_le; lia).
    cbn [bind]. rewrite !coord_into by lia. cbn [bind].
    rewrite !(idx_nth (scoords s) _ coord_default) by (fold (seq_size s); lia). cbn [bind].
    rewrite (is_on_segment_xy p (set_coordinate p0 _) _
      (nth (lo - 1) (scoords s) coord_default) (nth lo (scoords s) coord_default)) by reflexivity.
    destruct (is_on_segment p (nth (lo - 1) (scoords s) coord_default) (nth lo (scoords s) coord_default)); [reflexivity|].
    cbn [bind]. apply IH; lia. }
  destruct (Nat.eq_dec (seq_size s) 0) as [E|E]; [rewrite E; reflexivity|].
  exact (Gen (seq_size s - 1)%nat 1%nat coord_default coord_default ltac:(lia) ltac:(lia)).
Qed.

(** ** Triangles *)
Definition dt (a b p : R * R) : R := det3 (fst a) (snd a) (fst b) (snd b) (fst p) (snd p).
Lemma on_seg_dt p a b : on_seg p a b -> dt a b p = 0%R.
Proof. destruct p, a, b. intros H. apply on_seg_box in H. apply H. Qed.
Lemma crosses_up p a b : (snd a <= snd p < snd b)%R -> (crosses p a b <-> 0 < dt a b p)%R.
Proof.
  intros H. destruct (straddle_t (snd a) (snd b) (snd p)) as (t & T & Y); [lra|].
  unfold dt. rewrite (det3_at _ _ _ _ _ _ t Y). split.
  - intros (_ & t' & T' & Y' & X').
    assert (t' = t) as -> by (apply Rmult_eq_reg_r with (snd b - snd a)%R; lra). apply Rmult_lt_0_compat; lra.
  - intros G. split; [lra|]. exists t. split; [exact T|]. split; [exact Y|]. nra.
Qed.
Lemma crosses_down p a b : (snd b <= snd p < snd a)%R -> (crosses p a b <-> dt a b p < 0)%R.
Proof.
  intros H. split.
  - intros C. apply crosses_sym in C. apply crosses_up in C; [|exact H]. unfold dt, det3 in *. lra.
  - intros C. apply crosses_sym. apply crosses_up; [exact H|]. unfold dt, det3 in *. lra.
Qed.
Lemma crosses_flat p a b : (snd a <= snd p /\ snd b <= snd p \/ snd p < snd a /\ snd p < snd b)%R -> ~ crosses p a b.
Proof. intros H (S & _). lra. Qed.
Lemma straddle_on p a b : ((snd a <= snd p < snd b) \/ (snd b <= snd p < snd a))%R -> dt a b p = 0%R -> on_seg p a b.
Proof.
  intros H D. destruct (straddle_t (snd a) (snd b) (snd p)) as (t & T & Y); [lra|].
  unfold dt in D. rewrite (det3_at _ _ _ _ _ _ t Y) in D. apply Rmult_integral in D.
  exists t. split; [exact T|]. split; [lra|exact Y].
Qed.
Lemma dt_sum a b c p : (dt a b p + dt b c p + dt c a p = dt a b c)%R.
Proof. unfold dt, det3. ring. Qed.
Lemma dt_bary a b c p :
  ((snd a - snd p) * dt b c p + (snd b - snd p) * dt c a p + (snd c - snd p) * dt a b p = 0)%R.
Proof. unfold dt, det3. ring. Qed.
(** Apex [a] above, the others not. *)
Lemma tri_one_up p a b c : (0 < dt a b c)%R -> (snd p < snd a)%R -> (snd b <= snd p)%R -> (snd c <= snd p)%R ->
  ~ on_seg p a b -> ~ on_seg p b c -> ~ on_seg p c a ->
  (dt a b p <> 0 /\ dt c a p <> 0 /\
   ((dt a b p < 0 <-> dt c a p > 0) <-> ~ (0 < dt a b p /\ 0 < dt b c p /\ 0 < dt c a p)))%R.
Proof.
  intros D A B C O1 O2 O3.
  assert (N1 : dt a b p <> 0%R) by (intros E; apply O1, straddle_on; [lra|exact E]).
  assert (N3 : dt c a p <> 0%R) by (intros E; apply O3, straddle_on; [lra|exact E]).
  split; [exact N1|]. split; [exact N3|].
  pose proof (dt_sum a b c p) as S. pose proof (dt_bary a b c p) as Y.
  assert (Bd : (0 < dt a b p -> 0 < dt c a p -> 0 < dt b c p)%R).
  { intros P1 P3. destruct (Rle_lt_dec (dt b c p) 0) as [L|]; [exfalso|assumption].
    assert (0 <= (snd p - snd b) * dt c a p)%R by (apply Rmult_le_pos; lra).
    assert (0 <= (snd p - snd c) * dt a b p)%R by (apply Rmult_le_pos; lra).
    assert (E0 : ((snd a - snd p) * dt b c p <= 0)%R) by nra.
    assert (E1 : ((snd p - snd b) * dt c a p = 0)%R) by lra.
    assert (E2 : ((snd p - snd c) * dt a b p = 0)%R) by lra.
    apply Rmult_integral in E1, E2. assert (snd b = snd p) as Eb by lra. assert (snd c = snd p) as Ec by lra.
    apply O2. destruct p as [px py], b as [xb yb], c as [xc yc], a as [xa ya]. unfold dt, det3 in *. cbn [fst snd] in *. subst yb yc.
    assert (xb < px)%R by nra. assert (px < xc)%R by nra.
    apply box_on_seg; [unfold Rmin, Rmax; destruct (Rle_dec xb xc); lra|unfold Rmin, Rmax; destruct (Rle_dec py py); lra|unfold det3; ring]. }
  assert (Nn : (~ (dt a b p < 0 /\ dt c a p < 0))%R).
  { intros [P1 P3]. assert (0 < (snd a - snd p) * dt b c p)%R by (apply Rmult_lt_0_compat; lra).
    assert (0 <= (snd b - snd p) * dt c a p)%R by nra. assert (0 <= (snd c - snd p) * dt a b p)%R by nra. lra. }
  destruct (Rle_lt_dec (dt a b p) 0), (Rle_lt_dec (dt c a p) 0); split; intros H;
    first [exfalso; lra | intros (P1 & P2 & P3); lra | split; intros; lra
          | exfalso; apply H; split; [assumption|]; split; [apply Bd; assumption|assumption]].
Qed.
Lemma tri_two_up p a b c : (0 < dt a b c)%R -> (snd a <= snd p)%R -> (snd p < snd b)%R -> (snd p < snd c)%R ->
  ~ on_seg p a b -> ~ on_seg p b c -> ~ on_seg p c a ->
  (dt a b p <> 0 /\ dt c a p <> 0 /\
   ((dt a b p > 0 <-> dt c a p < 0) <-> ~ (0 < dt a b p /\ 0 < dt b c p /\ 0 < dt c a p)))%R.
Proof.
  intros D A B C O1 O2 O3.
  assert (N1 : dt a b p <> 0%R) by (intros E; apply O1, straddle_on; [lra|exact E]).
  assert (N3 : dt c a p <> 0%R) by (intros E; apply O3, straddle_on; [lra|exact E]).
  split; [exact N1|]. split; [exact N3|].
  pose proof (dt_sum a b c p) as S. pose proof (dt_bary a b c p) as Y.
  assert (Bd : (0 < dt a b p -> 0 < dt c a p -> 0 < dt b c p)%R).
  { intros P1 P3. destruct (Rle_lt_dec (dt b c p) 0) as [L|]; [exfalso|assumption].
    assert (0 < (snd b - snd p) * dt c a p)%R by (apply Rmult_lt_0_compat; lra).
    assert (0 < (snd c - snd p) * dt a b p)%R by (apply Rmult_lt_0_compat; lra).
    assert (0 <= (snd a - snd p) * dt b c p)%R by nra. lra. }
  assert (Nn : (~ (dt a b p < 0 /\ dt c a p < 0))%R).
  { intros [P1 P3]. assert ((snd a - snd p) * dt b c p <= 0)%R by nra.
    assert ((snd b - snd p) * dt c a p < 0)%R by nra. assert ((snd c - snd p) * dt a b p < 0)%R by nra. lra. }
  destruct (Rle_lt_dec (dt a b p) 0), (Rle_lt_dec (dt c a p) 0); split; intros H;
    first [exfalso; lra | intros (P1 & P2 & P3); lra | split; intros; lra
          | exfalso; apply H; split; [assumption|]; split; [apply Bd; assumption|assumption]].
Qed.
Lemma dt_rot a b c : dt b c a = dt a b c.
Proof. unfold dt, det3. ring. Qed.
Ltac tri_case F0 U0 W0 K Q :=
  pose proof F0 as F; pose proof U0 as U; pose proof W0 as W;
  let K1 := fresh "K1_" in let K2 := fresh "K2_" in let K3 := fresh "K3_" in let C1 := fresh "C1_" in let C2 := fresh "C2_" in let C3 := fresh "C3_" in
  inversion K as [|? ? ? C1 K1|? ? ? C1 K1]; subst;
  inversion K1 as [|? ? ? C2 K2|? ? ? C2 K2]; subst;
  inversion K2 as [|? ? ? C3 K3|? ? ? C3 K3]; subst; inversion K3; subst; cbn [fst snd] in C1, C2, C3;
  try contradiction;
  rewrite ?U, ?W in C1; rewrite ?U, ?W in C2; rewrite ?U, ?W in C3;
  cbn [Nat.odd Nat.even negb];
  let H := fresh "H_" in split; intros H; try discriminate; try reflexivity; lra.
Lemma triangle_parity p a b c k : (0 < dt a b c)%R -> ~ on_chain p [a; b; c; a] -> crossings p [a; b; c; a] k ->
  (Nat.odd k = true <-> (0 < dt a b p /\ 0 < dt b c p /\ 0 < dt c a p)%R).
Proof.
  intros D NO K.
  assert (O1 : ~ on_seg p a b) by (intros H; apply NO; exists a, b; split; [cbn; tauto|exact H]).
  assert (O2 : ~ on_seg p b c) by (intros H; apply NO; exists b, c; split; [cbn; tauto|exact H]).
  assert (O3 : ~ on_seg p c a) by (intros H; apply NO; exists c, a; split; [cbn; tauto|exact H]).
  pose proof (dt_rot a b c) as R1. pose proof (dt_rot b c a) as R2.
  pose proof (dt_sum a b c p) as S. pose proof (dt_bary a b c p) as Y.
  unfold crossings in K. cbn [segs] in K.
  destruct (Rle_lt_dec (snd a) (snd p)) as [A|A], (Rle_lt_dec (snd b) (snd p)) as [B|B], (Rle_lt_dec (snd c) (snd p)) as [C|C].
  - (* none above *)
    assert (k = 0%nat) as ->.
    { apply (count_of_fun _ _ _ _ K), count_none. intros s [<-|[<-|[<-|[]]]]; cbn; apply crosses_flat; lra. }
    split; [discriminate|]. intros (P1 & P2 & P3). exfalso.
    assert (0 <= (snd p - snd a) * dt b c p)%R by (apply Rmult_le_pos; lra).
    assert (0 <= (snd p - snd b) * dt c a p)%R by (apply Rmult_le_pos; lra).
    assert (0 <= (snd p - snd c) * dt a b p)%R by (apply Rmult_le_pos; lra).
    assert (E1 : ((snd p - snd a) * dt b c p = 0)%R) by lra.
    assert (E2 : ((snd p - snd b) * dt c a p = 0)%R) by lra.
    assert (E3 : ((snd p - snd c) * dt a b p = 0)%R) by lra.
    apply Rmult_integral in E1, E2, E3. unfold dt, det3 in D. nra.
  - destruct (tri_one_up p c a b) as (N1 & N3 & Q); [lra|assumption..|].
    tri_case (crosses_flat p a b ltac:(lra)) (crosses_up p b c ltac:(lra)) (crosses_down p c a ltac:(lra)) K Q.
  - destruct (tri_one_up p b c a) as (N1 & N3 & Q); [lra|assumption..|].
    tri_case (crosses_flat p c a ltac:(lra)) (crosses_up p a b ltac:(lra)) (crosses_down p b c ltac:(lra)) K Q.
  - destruct (tri_two_up p a b c) as (N1 & N3 & Q); [lra|assumption..|].
    tri_case (crosses_flat p b c ltac:(lra)) (crosses_up p a b ltac:(lra)) (crosses_down p c a ltac:(lra)) K Q.
  - destruct (tri_one_up p a b c) as (N1 & N3 & Q); [lra|assumption..|].
    tri_case (crosses_flat p b c ltac:(lra)) (crosses_up p c a ltac:(lra)) (crosses_down p a b ltac:(lra)) K Q.
  - destruct (tri_two_up p b c a) as (N1 & N3 & Q); [lra|assumption..|].
    tri_case (crosses_flat p c a ltac:(lra)) (crosses_up p b c ltac:(lra)) (crosses_down p a b ltac:(lra)) K Q.
  - destruct (tri_two_up p c a b) as (N1 & N3 & Q); [lra|assumption..|].
    tri_case (crosses_flat p a b ltac:(lra)) (crosses_up p c a ltac:(lra)) (crosses_down p b c ltac:(lra)) K Q.
  - (* all above *)
    assert (k = 0%nat) as ->.
    { apply (count_of_fun _ _ _ _ K), count_none. intros s [<-|[<-|[<-|[]]]]; cbn; apply crosses_flat; lra. }
    split; [discriminate|]. intros (P1 & P2 & P3). exfalso.
    assert (0 < (snd a - snd p) * dt b c p)%R by (apply Rmult_lt_0_compat; lra).
    assert (0 < (snd b - snd p) * dt c a p)%R by (apply Rmult_lt_0_compat; lra).
    assert (0 < (snd c - snd p) * dt a b p)%R by (apply Rmult_lt_0_compat; lra). lra.
Qed.
