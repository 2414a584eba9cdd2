(** Lemmas on polygons. *)
From Coq Require Import ZArith Bool List Lia.
From Verif Require Import Base F64 F64Facts Coordinate_model Coordinate_spec Coordinate_proofs Envelope_model Envelope_spec Envelope_proofs
  CoordArrays_model CoordArrays_spec CoordArrays_proofs CoordSeq_model CoordSeq_spec CoordSeq_proofs
  PrecisionModel_model Measure_model Orientation_model Orientation_proofs Matrix_model Matrix_props Geom_model Geom_proofs.
Import ListNotations.
Open Scope nat_scope.

Lemma rg_reverse_ok r : exists s, seq_reverse (rg_seq r) = Ok s /\ rg_reverse r = Ok (mkRg s None (rg_env r)).
Proof.
  destruct (reverse_ok (rg_seq r)) as (s & E & _). exists s. split; [exact E|]. unfold rg_reverse. rewrite seq_copy_id. cbn [bind]. rewrite E. cbn [bind].
  rewrite rg_of_seq_id. cbn [bind rg_seq rg_pm]. destruct (rg_env r) as [e|]; [now rewrite env_copy|reflexivity].
Qed.

(** ** Loops that copy *)
Lemma collect {A B} (f : A -> res B) (g : A -> B) (l : list A) : (forall a, In a l -> f a = Ok (g a)) ->
  forN (length l) 0 [] (fun i out => a <- idx l i ;; b <- f a ;; Ok (out ++ [b])) = Ok (map g l).
Proof.
  intros H. destruct (forN_ind (fun i out => out = map g (firstn i l)) (fun i out => a <- idx l i ;; b <- f a ;; Ok (out ++ [b])) (length l) 0 [] eq_refl) as (r & E & P).
  - intros i out Hi ->. destruct (nth_error l i) as [a|] eqn:N; [|apply nth_error_None in N; lia]. unfold idx. rewrite N. cbn [bind]. rewrite H by (eapply nth_error_In; eauto). cbn [bind].
    eexists. split; [reflexivity|]. assert (firstn (S i) l = firstn i l ++ [a]) as ->.
    { clear H Hi. revert i N. induction l as [|x l IH]; intros [|i] N; cbn in N; try discriminate; cbn; [now injection N as ->|]. f_equal. now apply IH. }
    now rewrite map_app.
  - rewrite E, P. cbn. now rewrite firstn_all.
Qed.
Lemma upd_nil {A} i (x : A) : upd [] i x = Panic.
Proof. destruct i; reflexivity. Qed.

(** ** Normalising *)
Lemma min_index_total s from to : to < length (scoords s) -> exists m, seq_min_index_from_to s from to = Ok m.
Proof.
  intros H. unfold seq_min_index_from_to, sq_min_index_from_to.
  match goal with |- exists m, bind (forN ?n ?lo ?x ?b) _ = _ => destruct (forN_ind (fun _ (_ : Z * option Coordinate) => True) b n lo x I) as (r & -> & _) end.
  - intros i (k & m) Hi _. rewrite seq_coord_point by (unfold seq_size; lia). cbn [bind]. eauto.
  - cbn [bind]. eauto.
Qed.
Lemma ring_normalize_ok u r c : usize_arith u -> length (scoords (rg_seq r)) <> 1 -> (Z.of_nat (length (scoords (rg_seq r))) <= 2147483648)%Z ->
  ring_normalize u r c = Ok (Some tt).
Proof.
  intros U N B. unfold ring_normalize, rg_is_empty, seq_size. set (n := length (scoords (rg_seq r))) in *.
  destruct (Nat.eqb_spec n 0); [reflexivity|]. rewrite rg_sequence_id. cbn [bind]. fold n.
  rewrite (u_in u _ U) by (unfold usize_max; lia). cbn [bind]. destruct (Z.leb_spec (Z.of_nat n) (Z.of_nat n - 2)); [lia|].
  destruct (min_index_total (rg_seq r) 0 (Z.to_nat (Z.of_nat n - 2))) as (m & ->); [fold n; lia|]. cbn [bind].
  assert (exists s', seq_scroll_ring (rg_seq r) (Z.to_nat m) true = Ok s' /\ length (scoords s') = n) as (s' & -> & L).
  { destruct (Z.to_nat m) as [|i] eqn:M; [eexists; split; reflexivity|].
    destruct (seq_scroll_spec (rg_seq r) (S i) true ltac:(lia) ltac:(fold n; lia)) as (s' & E & _ & _ & L & _). exists s'. auto. }
  cbn [bind]. destruct (is_ccw_total s') as (b & ->); [unfold seq_size; lia|]. cbn [bind]. destruct (Bool.eqb b c); [|reflexivity].
  destruct (reverse_ok s') as (t & -> & _). reflexivity.
Qed.
Lemma ring_normalize_one u r c : usize_arith u -> length (scoords (rg_seq r)) = 1 -> ring_normalize u r c = Panic.
Proof.
  intros U N. unfold ring_normalize, rg_is_empty, seq_size. rewrite N. cbn [Nat.eqb]. rewrite rg_sequence_id. cbn [bind]. rewrite N.
  change (Z.of_nat 1 - 2)%Z with (-1)%Z. destruct (u_below u U) as [->| ->]; reflexivity.
Qed.

(** ** Filling the array of coordinates *)
Definition i32_arith (i : Z -> res Z) : Prop := i = i32_chk \/ i = (fun z => Ok (i32_wrap z)).
Lemma i32_in i z : i32_arith i -> (0 <= z <= 2147483647)%Z -> i z = Ok z.
Proof.
  intros [->| ->] H.
  - unfold i32_chk, i32_min, i32_max. destruct (Z.leb_spec (-2147483648) z), (Z.leb_spec z 2147483647); try lia. reflexivity.
  - now rewrite i32_wrap_small by lia.
Qed.
Lemma upd_mid {A} (l1 : list A) x l2 y : upd (l1 ++ x :: l2) (length l1) y = Ok (l1 ++ y :: l2).
Proof. induction l1 as [|a l1 IH]; cbn; [reflexivity|]. now rewrite IH. Qed.
Lemma put_all_ok i cs pre rest : i32_arith i -> length cs <= length rest -> (Z.of_nat (length pre + length cs) <= 2147483648)%Z ->
  put_all i cs (Z.of_nat (length pre) - 1, pre ++ rest)%Z = Ok (Z.of_nat (length pre + length cs) - 1, (pre ++ cs) ++ skipn (length cs) rest)%Z.
Proof.
  intros I L B. unfold put_all.
  destruct (forN_ind (fun j '(k, out) => k = (Z.of_nat (length pre + j) - 1)%Z /\ out = (pre ++ firstn j cs) ++ skipn j rest)
    (fun j '(k, out) => k <- i (k + 1)%Z ;; c <- idx cs j ;; out <- zupd out (usize_wrap k) c ;; Ok (k, out)) (length cs) 0 (Z.of_nat (length pre) - 1, pre ++ rest)%Z) as ((k & out) & E & Hk & Ho).
  - rewrite Nat.add_0_r, app_nil_r. auto.
  - intros j (k & out) Hj (-> & ->). rewrite (i32_in i _ I) by lia. cbn [bind]. destruct (nth_error cs j) as [c|] eqn:C; [|apply nth_error_None in C; lia].
    unfold idx. rewrite C. cbn [bind]. rewrite usize_wrap_small by (unfold usize_max; lia).
    destruct (skipn j rest) as [|x t] eqn:Sk; [pose proof (skipn_length j rest) as Q; rewrite Sk in Q; cbn in Q; lia|].
    assert (length (pre ++ firstn j cs) = length pre + j) as LP by (rewrite app_length, firstn_length; lia).
    assert (zupd ((pre ++ firstn j cs) ++ x :: t) (Z.of_nat (length pre + j) - 1 + 1) c = Ok ((pre ++ firstn j cs) ++ c :: t)) as ->.
    { unfold zupd. rewrite app_length, LP. cbn [length]. destruct (Z.leb_spec 0 (Z.of_nat (length pre + j) - 1 + 1)), (Z.ltb_spec (Z.of_nat (length pre + j) - 1 + 1) (Z.of_nat (length pre + j + S (length t)))); try lia.
      cbn [andb]. replace (Z.to_nat (Z.of_nat (length pre + j) - 1 + 1)) with (length (pre ++ firstn j cs)) by lia. apply upd_mid. }
    cbn [bind]. eexists. split; [reflexivity|]. cbn beta iota. split; [lia|].
    assert (firstn (S j) cs = firstn j cs ++ [c]) as ->.
    { clear - C. revert j C. induction cs as [|y cs IH]; intros [|j] C; cbn in C; try discriminate; cbn; [now injection C as ->|]. f_equal. now apply IH. }
    assert (skipn (S j) rest = t) as ->.
    { clear - Sk. revert j Sk. induction rest as [|y rest IH]; intros [|j] Sk; cbn in Sk; try discriminate; [now injection Sk as _ ->|]. cbn. now apply IH. }
    rewrite <- !app_assoc. reflexivity.
  - rewrite E, Hk, Ho. cbn [Nat.add]. now rewrite firstn_all.
Qed.
Lemma num_points_sum p : pg_num_points p = length (scoords (rg_seq (pg_shell p)) ++ concat (map (fun h => scoords (rg_seq h)) (pg_holes p))).
Proof.
  unfold pg_num_points, rg_num_points, seq_size. generalize (scoords (rg_seq (pg_shell p))). induction (pg_holes p) as [|h hs IH]; intros l.
  - cbn. now rewrite app_nil_r.
  - cbn [fold_left map concat]. rewrite <- app_length, IH. now rewrite <- app_assoc.
Qed.

(** ** Comparison of lists with a comparison that is good on a domain *)
Lemma lexcmp_on {A} (P : A -> Prop) (cmp : A -> A -> Z) lt eq l1 l2 :
  (forall a b, P a -> P b -> (cmp a b = -1 \/ cmp a b = 0 \/ cmp a b = 1)%Z /\ (cmp a b = (-1)%Z <-> lt a b) /\ (cmp a b = 0%Z <-> eq a b)) ->
  Forall P l1 -> Forall P l2 ->
  (lexcmp cmp l1 l2 = -1 \/ lexcmp cmp l1 l2 = 0 \/ lexcmp cmp l1 l2 = 1)%Z /\
  (lexcmp cmp l1 l2 = (-1)%Z <-> lexi lt eq l1 l2) /\ (lexcmp cmp l1 l2 = 0%Z <-> Forall2 eq l1 l2).
Proof.
  intros H F1. revert l2. induction F1 as [|a l1 Pa F1 IH]; intros l2 F2; inversion F2 as [|b l2' Pb F2']; subst; cbn [lexcmp].
  - split; [auto|]. split; split; intros X; try discriminate; try inversion X; constructor.
  - split; [auto|]. split; split; intros X; try discriminate; try inversion X; constructor.
  - split; [auto|]. split; split; intros X; try discriminate; inversion X.
  - destruct (H a b Pa Pb) as (R & H1 & H2). destruct (IH l2' F2') as (R' & I1 & I2). destruct (Z.eqb_spec (cmp a b) 0) as [E|E].
    + split; [exact R'|]. split; split; intros X.
      * apply lexi_tail; tauto.
      * inversion X as [| ? ? ? ? L | ? ? ? ? Q L]; subst; [apply H1 in L; lia|tauto].
      * constructor; tauto.
      * inversion X; subst. tauto.
    + split; [exact R|]. split; split; intros X.
      * apply lexi_head; tauto.
      * inversion X as [| ? ? ? ? L | ? ? ? ? Q L]; subst; tauto.
      * contradiction.
      * inversion X; subst. tauto.
Qed.
Lemma pg_compare_by_lex cmp (f : GRing -> GRing -> Z) p q :
  (forall a b, In a (pg_shell p :: pg_holes p) -> In b (pg_shell q :: pg_holes q) -> cmp (mkRg (rg_seq a) None None) (mkRg (rg_seq b) None None) = Ok (f a b)) ->
  pg_compare_by cmp p q = Ok (lexcmp f (pg_shell p :: pg_holes p) (pg_shell q :: pg_holes q)).
Proof.
  intros H. unfold pg_compare_by. rewrite !rg_copy_id. cbn [bind]. rewrite H by (cbn; auto). cbn [bind lexcmp].
  destruct (Z.eqb_spec (f (pg_shell p) (pg_shell q)) 0) as [E|E]; cbn [negb]; [|reflexivity]. unfold pg_num_holes.
  destruct (loop_lex f (pg_holes p) (pg_holes q) 0 (fun i _ => a <- pg_hole_n p i ;; b <- pg_hole_n q i ;; c <- cmp a b ;; Ok (if negb (c =? 0)%Z then inr c else inl tt))) as (o & -> & K).
  { intros i a b A B. rewrite Nat.add_0_l. unfold pg_hole_n, idx. rewrite A, B. cbn [bind]. rewrite !rg_copy_id. cbn [bind].
    rewrite H by (right; eapply nth_error_In; eauto). reflexivity. }
  cbn [bind]. destruct o as [[]|c]; [|now rewrite K]. rewrite K.
  destruct (Nat.ltb_spec (length (pg_holes q)) (length (pg_holes p))).
  - rewrite Nat.min_r by lia. now rewrite (proj2 (Nat.ltb_lt _ _)).
  - rewrite Nat.min_l by lia. rewrite Nat.ltb_irrefl. now destruct (Nat.ltb (length (pg_holes p)) (length (pg_holes q))).
Qed.
Lemma upd_nth_error {A} (l : list A) i a l' : upd l i a = Ok l' -> length l' = length l /\ forall j, nth_error l' j = if Nat.eqb j i then Some a else nth_error l j.
Proof.
  revert i l'. induction l as [|h l IH]; intros [|i] l' H; cbn in H; try discriminate.
  - injection H as <-. split; [reflexivity|]. intros [|j]; reflexivity.
  - destruct (upd l i a) as [t|] eqn:T; cbn in H; [|discriminate]. injection H as <-. destruct (IH i t T) as (L & Q). split; [cbn; lia|]. intros [|j]; [reflexivity|apply Q].
Qed.
