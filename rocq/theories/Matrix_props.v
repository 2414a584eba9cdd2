(** C63: the linear solver. *)
From Coq Require Import ZArith Bool List Lia Reals.
From Verif Require Import Base F64 F64Facts Matrix_model.
Import ListNotations.
Open Scope Z_scope.

(** ** Indexing *)
Lemma zidx_nat {A} (l : list A) i : zidx l (Z.of_nat i) = idx l i.
Proof.
  unfold zidx. rewrite Nat2Z.id. destruct (Z.leb_spec 0 (Z.of_nat i)); [|lia]. destruct (Z.ltb_spec (Z.of_nat i) (Z.of_nat (length l))); [reflexivity|].
  cbn [andb]. symmetry. apply idx_panic. lia.
Qed.
Lemma zidx_high {A} (l : list A) k : Z.of_nat (length l) <= k -> zidx l k = Panic.
Proof. intros H. unfold zidx. destruct (Z.ltb_spec k (Z.of_nat (length l))); [lia|]. now rewrite andb_false_r. Qed.
Lemma upd_Forall {A} (P : A -> Prop) l i x l' : upd l i x = Ok l' -> P x -> Forall P l -> Forall P l'.
Proof.
  revert i l'. induction l as [|h l IH]; intros [|i] l' E Px F; cbn in E; try discriminate.
  - injection E as <-. inversion F; subst. now constructor.
  - destruct (upd l i x) as [t|] eqn:Q; [|discriminate]. injection E as <-. inversion F; subst. constructor; [assumption|]. now apply (IH i).
Qed.
(** Vectors no longer than a [usize] allows. *)
Definition fits {A} (l : list A) : Prop := Z.of_nat (length l) <= usize_max.
Definition fits2 (a : list (list f64)) : Prop := fits a /\ Forall fits a.
Lemma set2_fits a i k x a' : set2 a i k x = Ok a' -> fits2 a -> fits2 a'.
Proof.
  unfold set2, bind. destruct (zidx a i) as [r|] eqn:E; [|discriminate]. destruct (zupd r k x) as [r'|] eqn:E'; [|discriminate]. intros E2 (F & G).
  unfold zupd in *. destruct ((0 <=? i) && _); [|discriminate]. destruct ((0 <=? k) && _); [|discriminate].
  destruct (upd_spec _ _ _ _ E') as (L & _ & _). destruct (upd_spec _ _ _ _ E2) as (L2 & _ & _). split; [unfold fits in *; now rewrite L2|].
  apply (upd_Forall _ _ _ _ _ E2); [|exact G]. unfold fits. rewrite L.
  unfold zidx in E. destruct ((0 <=? i) && _); [|discriminate]. unfold idx in E. destruct (nth_error a (Z.to_nat i)) as [q|] eqn:N; [|discriminate]. injection E as ->.
  apply nth_error_In in N. rewrite Forall_forall in G. now apply G.
Qed.
Definition usize_arith (u : Z -> res Z) : Prop := u = usize_chk \/ u = usize_wrapping.
Lemma u_in u z : usize_arith u -> 0 <= z <= usize_max -> u z = Ok z.
Proof.
  intros [->| ->] H.
  - unfold usize_chk. destruct (Z.leb_spec 0 z), (Z.leb_spec z usize_max); try lia. reflexivity.
  - unfold usize_wrapping, usize_wrap. f_equal. apply Z.mod_small. unfold usize_max in H. lia.
Qed.
Lemma u_below u : usize_arith u -> u (-1) = Panic \/ u (-1) = Ok usize_max.
Proof. intros [->| ->]; [left|right]; reflexivity. Qed.

(** The loop that eliminates with row 0 runs below index 0. *)
Lemma eliminate_row_panics u j rf : usize_arith u -> forall fuel a k, fits2 a -> 0 <= k <= usize_max -> (Z.to_nat k + 2 <= fuel)%nat ->
  eliminate_row u fuel 0 j rf a k = Some Panic.
Proof.
  intros U. induction fuel as [|fuel IH]; intros a k F K L; [lia|]. cbn [eliminate_row]. destruct (Z.leb_spec 0 k); [|lia].
  destruct (get2 a j k) as [x|] eqn:E1; [|reflexivity]. cbn [bind]. destruct (get2 a 0 k) as [y|] eqn:E2; [|reflexivity]. cbn [bind].
  destruct (set2 a j k (fsub x (fmul y rf))) as [a'|] eqn:E3; [|reflexivity]. cbn [bind]. pose proof (set2_fits _ _ _ _ _ E3 F) as F'.
  destruct (Z.eq_dec k 0) as [->|N].
  - change (0 - 1) with (-1). destruct (u_below u U) as [->| ->]; [reflexivity|]. cbn [bind].
    destruct fuel as [|fuel]; [lia|]. cbn [eliminate_row]. change (0 <=? usize_max) with true. cbn match.
    unfold get2. destruct (zidx a' j) as [r|] eqn:E; [|reflexivity]. cbn [bind]. rewrite zidx_high; [reflexivity|].
    unfold zidx in E. destruct ((0 <=? j) && _); [|discriminate]. unfold idx in E. destruct (nth_error a' (Z.to_nat j)) as [q|] eqn:Nq; [|discriminate]. injection E as ->.
    apply nth_error_In in Nq. destruct F' as (_ & G). rewrite Forall_forall in G. now apply G.
  - rewrite (u_in u (k - 1) U) by lia. cbn [bind]. apply IH; try lia; auto.
Qed.
Lemma swap2_fits a i j a' : swap_rows_2d a i j = Ok a' -> fits2 a -> fits2 a'.
Proof.
  unfold swap_rows_2d. destruct (Nat.eqb i j); [intros E; now injection E as <-|]. destruct (idx a 0) as [r0|]; [|discriminate]. cbn [bind]. generalize (length r0) at 1. generalize 0%nat.
  intros lo n. revert lo a. induction n as [|n IH]; intros lo a E F; cbn [forN] in E; [now injection E as <-|].
  destruct (get2 a (Z.of_nat i) (Z.of_nat lo)) as [x|]; [|discriminate]. cbn [bind] in E. destruct (get2 a (Z.of_nat j) (Z.of_nat lo)) as [y|]; [|discriminate]. cbn [bind] in E.
  destruct (set2 a (Z.of_nat i) (Z.of_nat lo) y) as [a1|] eqn:E1; [|discriminate]. cbn [bind] in E. destruct (set2 a1 (Z.of_nat j) (Z.of_nat lo) x) as [a2|] eqn:E2; [|discriminate]. cbn [bind] in E.
  apply (IH _ _ E). apply (set2_fits _ _ _ _ _ E2). now apply (set2_fits _ _ _ _ _ E1).
Qed.
(** A system of one equation: after the only unknown the count goes below 0. *)
Lemma back_panics u a b s fuel : usize_arith u -> fits2 a -> (4 <= fuel)%nat -> back_substitute u fuel a b s 1 0 = Some Panic.
Proof.
  intros U F L. do 4 (destruct fuel as [|fuel]; [lia|]). cbn [back_substitute]. change (0 <=? 0) with true. cbn match. rewrite (u_in u (0 + 1) U) by (unfold usize_max; lia).
  cbn [back_sum]. change (0 + 1 <? 1) with false. cbn match.
  destruct (zidx b 0) as [x|]; [|reflexivity]. cbn [bind]. destruct (get2 a 0 0) as [y|]; [|reflexivity]. cbn [bind]. destruct (zupd s 0 _) as [s'|]; [|reflexivity]. cbn [bind].
  change (0 - 1) with (-1). destruct (u_below u U) as [->| ->]; [reflexivity|]. cbn [bind back_substitute]. change (0 <=? usize_max) with true. cbn match.
  destruct U as [->| ->]; [reflexivity|]. change (usize_wrapping (usize_max + 1)) with (Ok 0). cbn match. cbn [back_sum]. change (0 <? 1) with true. cbn match.
  unfold get2. destruct F as (F & _). rewrite zidx_high by exact F. reflexivity.
Qed.
Lemma eliminate_first u n a b fuel : usize_arith u -> fits2 a -> length b = S n -> Z.of_nat (S n) <= usize_max -> (S n + 5 <= fuel)%nat ->
  eliminate u fuel (S n) (S n) 0 a b = Some Panic \/
  (exists m x, pivot_row a (S n) 0 = Ok m /\ get2 a (Z.of_nat m) 0 = Ok x /\ feqb x f0 = true /\ eliminate u fuel (S n) (S n) 0 a b = Some (Ok (a, b, false))) \/
  (n = 0%nat /\ exists a' b', fits2 a' /\ eliminate u fuel (S n) (S n) 0 a b = Some (Ok (a', b', true))).
Proof.
  intros U F Lb Bn L. cbn [eliminate]. destruct (pivot_row a (S n) 0) as [m|] eqn:EP; [|now left]. cbn [bind]. change (Z.of_nat 0) with 0.
  destruct (get2 a (Z.of_nat m) 0) as [x|] eqn:EX; [|now left]. cbn [bind]. destruct (feqb x f0) eqn:EZ; [right; left; eauto 6|].
  destruct (swap_rows_2d a 0 m) as [a1|] eqn:E1; [|now left]. cbn [bind]. destruct (swap_rows_1d b 0 m) as [b1|] eqn:E2; [|now left]. cbn [bind].
  pose proof (swap2_fits _ _ _ _ E1 F) as F1. destruct n as [|n].
  - right; right. split; [reflexivity|]. cbn. eauto.
  - left. change (S (S n) - (0 + 1))%nat with (S n). change (0 + 1)%nat with 1%nat. cbn [eliminate_below].
    destruct (get2 a1 (Z.of_nat 1) (Z.of_nat 0)) as [y|]; [|reflexivity]. cbn [bind]. destruct (get2 a1 (Z.of_nat 0) (Z.of_nat 0)) as [z|]; [|reflexivity]. cbn [bind].
    rewrite (u_in u) by (auto; lia). cbn [bind]. change (Z.of_nat 0) with 0. rewrite eliminate_row_panics; [reflexivity|assumption|assumption| |]; lia.
Qed.
(** ** The solver never returns a solution *)
(** In a build with or without overflow checks, on every matrix and right-hand
    side, [solve] ends, either with a panic or with [None]; in the second case
    the matrix and the right-hand side are unchanged. *)
Theorem C63_never_solves : forall u a b, usize_arith u -> fits2 a -> fits b ->
  exists N, (forall fuel, (N <= fuel)%nat -> solve u fuel a b = Some Panic) \/
            (forall fuel, (N <= fuel)%nat -> solve u fuel a b = Some (Ok (a, b, None))).
Proof.
  intros u a b U F Fb. exists (length b + 5)%nat.
  unfold solve. destruct (negb (Nat.eqb (length a) (length b))) eqn:E0; [now right|].
  destruct (idx a 0) as [r0|] eqn:E1; cbn [bind]; [|now left]. destruct (negb (Nat.eqb (length r0) (length b))) eqn:E2; [now right|].
  apply negb_false_iff, Nat.eqb_eq in E0. destruct (length b) as [|n] eqn:Lb.
  { destruct a; [discriminate E1|discriminate E0]. }
  assert (Z.of_nat (S n) <= usize_max) as Bn by (unfold fits in Fb; now rewrite Lb in Fb).
  assert (forall fuel, (S n + 5 <= fuel)%nat -> forall m x, pivot_row a (S n) 0 = Ok m -> get2 a (Z.of_nat m) 0 = Ok x -> feqb x f0 = true -> eliminate u fuel (S n) (S n) 0 a b = Some (Ok (a, b, false))) as H0.
  { intros fuel L m x P G Z. cbn [eliminate]. rewrite P. cbn [bind]. change (Z.of_nat 0) with 0. rewrite G. cbn [bind]. now rewrite Z. }
  destruct (pivot_row a (S n) 0) as [m|] eqn:P.
  2:{ left. intros fuel L. destruct fuel as [|fuel]; [lia|]. cbn [eliminate]. rewrite P. reflexivity. }
  destruct (get2 a (Z.of_nat m) 0) as [x|] eqn:G.
  2:{ left. intros fuel L. cbn [eliminate]. rewrite P. cbn [bind]. change (Z.of_nat 0) with 0. rewrite G. reflexivity. }
  destruct (feqb x f0) eqn:Z.
  - right. intros fuel L. rewrite (H0 fuel L m x eq_refl G Z). reflexivity.
  - left. intros fuel L. destruct (eliminate_first u n a b fuel U F Lb Bn L) as [->|[(m' & x' & P' & G' & Z' & _)|(-> & a' & b' & F' & ->)]].
    + reflexivity.
    + rewrite P in P'. injection P' as <-. congruence.
    + change (Z.of_nat 1 - 1) with 0. rewrite (u_in u 0 U) by (unfold usize_max; lia). change (Z.of_nat 1) with 1. rewrite back_panics; auto. lia.
Qed.
(** Which of the two: [None] for a matrix that is not square (judging by the
    first row), or whose first column is zero; a panic for an empty system and
    for every other square matrix, regular ones included. *)
Theorem C63_sizes : forall u fuel a b r, nth_error a 0 = Some r -> (length a <> length b \/ length r <> length b) -> solve u fuel a b = Some (Ok (a, b, None)).
Proof.
  intros u fuel a b r E H. unfold solve. destruct (Nat.eqb_spec (length a) (length b)) as [L|L]; cbn [negb]; [|reflexivity].
  unfold idx. rewrite E. cbn [bind]. destruct (Nat.eqb_spec (length r) (length b)); cbn [negb]; [|reflexivity]. destruct H; contradiction.
Qed.
Theorem C63_empty : forall u fuel, solve u fuel [] [] = Some Panic.
Proof. reflexivity. Qed.
Definition column0 (a : list (list f64)) : list f64 := map (fun r => nth 0 r fnan) a.
Definition square (n : nat) (a : list (list f64)) : Prop := length a = n /\ Forall (fun r => length r = n) a.
Lemma get2_nth a n i k : square n a -> (i < n)%nat -> (k < n)%nat -> get2 a (Z.of_nat i) (Z.of_nat k) = Ok (nth k (nth i a []) fnan).
Proof.
  intros (L & F) Hi Hk. unfold get2. rewrite zidx_nat, (idx_nth _ _ []) by lia. cbn [bind]. rewrite zidx_nat. apply idx_nth.
  rewrite Forall_forall in F. rewrite (F (nth i a [])); [exact Hk|]. apply nth_In. lia.
Qed.
Theorem C63_square : forall u n a b, usize_arith u -> square (S n) a -> length b = S n -> fits b ->
  (forall x, In x (column0 a) -> nn x) ->
  exists N, forall fuel, (N <= fuel)%nat ->
    ((forall x, In x (column0 a) -> feqb x f0 = true) -> solve u fuel a b = Some (Ok (a, b, None))) /\
    ((exists x, In x (column0 a) /\ feqb x f0 = false) -> solve u fuel a b = Some Panic).
Proof.
  intros u n a b U SQ Lb Fb NN. assert (fits2 a) as F2.
  { destruct SQ as (L & F). unfold fits in *. split; [unfold fits; now rewrite L, <- Lb|]. revert F. apply Forall_impl. intros r Hr. unfold fits. now rewrite Hr, <- Lb. }
  destruct (C63_never_solves u a b U F2 Fb) as (N & H). exists (N + (length b + 5))%nat. intros fuel HF.
  assert (Z.of_nat (S n) <= usize_max) as Bn by (unfold fits in Fb; now rewrite Lb in Fb).
  pose proof (get2_nth a (S n)) as G2. assert (forall i, (i < S n)%nat -> get2 a (Z.of_nat i) 0 = Ok (nth i (column0 a) fnan)) as G0.
  { intros i Hi. change 0 with (Z.of_nat 0). rewrite (G2 i 0%nat SQ Hi ltac:(lia)). f_equal. unfold column0.
    rewrite (nth_indep (map (fun r => nth 0 r fnan) a) fnan (nth 0 [] fnan)) by (rewrite map_length; destruct SQ; lia). now rewrite (map_nth (fun r => nth 0 r fnan)). }
  assert (length (column0 a) = S n) as LC by (unfold column0; rewrite map_length; apply SQ).
  assert (forall i, (i < S n)%nat -> In (nth i (column0 a) fnan) (column0 a)) as IC by (intros i Hi; apply nth_In; lia).
  (* the chosen row has an entry of the greatest size *)
  assert (exists m, pivot_row a (S n) 0 = Ok m /\ (m < S n)%nat /\ forall i, (i < S n)%nat -> Z.abs (rank (nth i (column0 a) fnan)) <= Z.abs (rank (nth m (column0 a) fnan))) as (m & P & Hm & MX).
  { unfold pivot_row. change (S n - (0 + 1))%nat with (n - 0)%nat. rewrite Nat.sub_0_r. change (0 + 1)%nat with 1%nat.
    destruct (forN_ind (fun j m => (m < S n)%nat /\ forall i, (i < j)%nat -> Z.abs (rank (nth i (column0 a) fnan)) <= Z.abs (rank (nth m (column0 a) fnan)))
      (fun j m => x <- get2 a (Z.of_nat j) (Z.of_nat 0) ;; y <- get2 a (Z.of_nat m) (Z.of_nat 0) ;; Ok (if fgtb (fabs x) (fabs y) then j else m)) n 1 0%nat) as (m & E & Hm & MX).
    - split; [lia|]. intros i Hi. replace i with 0%nat by lia. lia.
    - intros j m Hj (Hm & MX). change (Z.of_nat 0) with 0. rewrite !G0 by lia. cbn [bind]. eexists. split; [reflexivity|].
      rewrite fgtb_rank by (apply nn_fabs, NN, IC; lia). rewrite !rank_fabs.
      destruct (Z.ltb_spec (Z.abs (rank (nth m (column0 a) fnan))) (Z.abs (rank (nth j (column0 a) fnan)))) as [Q|Q].
      + split; [lia|]. intros i Hi. destruct (Nat.eq_dec i j) as [->|]; [lia|]. specialize (MX i ltac:(lia)). lia.
      + split; [lia|]. intros i Hi. destruct (Nat.eq_dec i j) as [->|]; [lia|]. apply MX. lia.
    - exists m. split; [exact E|]. split; [exact Hm|]. intros i Hi. apply MX. lia. }
  assert (forall x, nn x -> feqb x f0 = (rank x =? 0)) as FZ by (intros x Nx; rewrite feqb_rank by (assumption || reflexivity); reflexivity).
  assert (solve u fuel a b = Some Panic \/ solve u fuel a b = Some (Ok (a, b, None))) as CASES by (destruct H as [H|H]; [left|right]; apply H; lia).
  assert (solve u fuel a b = Some (Ok (a, b, None)) <-> feqb (nth m (column0 a) fnan) f0 = true) as IFF.
  { unfold solve. rewrite Lb. destruct SQ as (LA & FA). rewrite LA, Nat.eqb_refl. cbn [negb]. rewrite (idx_nth a 0 []) by lia. cbn [bind].
    assert (length (nth 0 a []) = S n) as -> by (rewrite Forall_forall in FA; apply FA, nth_In; lia). rewrite Nat.eqb_refl. cbn [negb].
    destruct (eliminate_first u n a b fuel U F2 Lb Bn ltac:(lia)) as [E|[(m' & x' & P' & G' & Z' & E)|(-> & a' & b' & F' & E)]].
    - rewrite E. split; [discriminate|]. intros Z. exfalso. revert E. cbn [eliminate]. rewrite P. cbn [bind]. change (Z.of_nat 0) with 0. rewrite G0 by exact Hm. cbn [bind]. rewrite Z. discriminate.
    - rewrite E. rewrite P in P'. injection P' as <-. rewrite G0 in G' by exact Hm. injection G' as <-. tauto.
    - rewrite E. change (Z.of_nat 1 - 1) with 0. rewrite (u_in u 0 U) by (unfold usize_max; lia). change (Z.of_nat 1) with 1. rewrite back_panics by (auto; lia).
      split; [discriminate|]. intros Z. exfalso. revert E. cbn [eliminate]. rewrite P. cbn [bind]. change (Z.of_nat 0) with 0. rewrite G0 by exact Hm. cbn [bind]. rewrite Z. discriminate. }
  split.
  - intros Z. apply IFF, Z, IC, Hm.
  - intros (x & Ix & Nx). destruct CASES as [C|C]; [exact C|]. exfalso. apply IFF in C.
    destruct (In_nth _ _ fnan Ix) as (i & Hi & <-). rewrite LC in Hi. rewrite FZ in C, Nx by (apply NN, IC; assumption). apply Z.eqb_eq in C. apply Z.eqb_neq in Nx.
    specialize (MX i Hi). lia.
Qed.
(** A solver that solves would return [Some] on every regular system; this one
    does on none, for instance not on [a * x = b] with a number [a] not zero. *)
Theorem C63_solves_refuted : forall u x y, usize_arith u -> nn x -> feqb x f0 = false ->
  ~ (exists N s, forall fuel, (N <= fuel)%nat -> exists a' b', solve u fuel [[x]] [y] = Some (Ok (a', b', Some s))).
Proof.
  intros u x y U Nx Zx (N & s & H). destruct (C63_square u 0 [[x]] [y] U) as (M & K).
  - split; [reflexivity|]. repeat constructor.
  - reflexivity.
  - unfold fits. cbn. unfold usize_max. lia.
  - intros z [<-|[]]. exact Nx.
  - destruct (K (N + M)%nat ltac:(lia)) as (_ & K2). destruct (H (N + M)%nat ltac:(lia)) as (a' & b' & E). rewrite K2 in E; [discriminate|]. exists x. split; [now left|exact Zx].
Qed.
(** ** Exchanging rows *)
Definition exchange (i j k : nat) : nat := if Nat.eqb k i then j else if Nat.eqb k j then i else k.
Lemma exchange_twice i j k : exchange i j (exchange i j k) = k.
Proof. unfold exchange. destruct (Nat.eqb_spec k i) as [Ei|Ei]; [|destruct (Nat.eqb_spec k j) as [Ej|Ej]]; repeat match goal with |- context [Nat.eqb ?a ?b] => destruct (Nat.eqb_spec a b) end; congruence. Qed.
Theorem C63_swap_1d : forall m i j,
  ((i < length m)%nat -> (j < length m)%nat -> exists m', swap_rows_1d m i j = Ok m' /\ length m' = length m /\
     (forall k d, nth k m' d = nth (exchange i j k) m d) /\ swap_rows_1d m' i j = Ok m) /\
  (i <> j -> (length m <= i \/ length m <= j)%nat -> swap_rows_1d m i j = Panic).
Proof.
  intros m i j. split.
  - assert (forall m, (i < length m)%nat -> (j < length m)%nat -> exists m', swap_rows_1d m i j = Ok m' /\ length m' = length m /\ (forall k d, nth k m' d = nth (exchange i j k) m d)) as K.
    { clear m. intros m Hi Hj. unfold swap_rows_1d, exchange. destruct (Nat.eqb_spec i j) as [->|N].
      - exists m. repeat split. intros k d. destruct (Nat.eqb_spec k j) as [->|]; reflexivity.
      - rewrite (idx_nth m i fnan), (idx_nth m j fnan) by assumption. cbn [bind]. destruct (upd_some m i (nth j m fnan) Hi) as (m1 & E1). rewrite E1. cbn [bind].
        destruct (upd_spec _ _ _ _ E1) as (L1 & _ & N1). destruct (upd_some m1 j (nth i m fnan) ltac:(lia)) as (m2 & E2). destruct (upd_spec _ _ _ _ E2) as (L2 & _ & N2).
        exists m2. split; [exact E2|]. split; [lia|]. intros k d. rewrite N2, N1. destruct (Nat.eqb_spec k j) as [Ej|Nj]; destruct (Nat.eqb_spec k i) as [Ei|Ni]; try congruence; apply nth_indep; assumption. }
    intros Hi Hj. destruct (K m Hi Hj) as (m' & E & L & H). exists m'. do 3 (split; [assumption|]).
    destruct (K m') as (m2 & E2 & L2 & H2); [lia..|]. rewrite E2. f_equal. apply nth_ext_eq with fnan; [lia|]. intros k Hk. rewrite H2, H. now rewrite exchange_twice.
  - intros N H. unfold swap_rows_1d. destruct (Nat.eqb_spec i j); [contradiction|]. destruct (Nat.lt_ge_cases i (length m)) as [Hi|Hi].
    + rewrite (idx_nth m i fnan) by assumption. cbn [bind]. rewrite (idx_panic m j) by lia. reflexivity.
    + rewrite idx_panic by lia. reflexivity.
Qed.
Definition at2 (m : list (list f64)) (i k : nat) : f64 := nth k (nth i m []) fnan.
Definition rectangle (r c : nat) (m : list (list f64)) : Prop := length m = r /\ forall i, (i < r)%nat -> length (nth i m []) = c.
Lemma get2_rect r c m i k : rectangle r c m -> (i < r)%nat -> (k < c)%nat -> get2 m (Z.of_nat i) (Z.of_nat k) = Ok (at2 m i k).
Proof. intros (L & F) Hi Hk. unfold get2. rewrite zidx_nat, (idx_nth _ _ []) by lia. cbn [bind]. rewrite zidx_nat. apply idx_nth. rewrite F; assumption. Qed.
Lemma set2_rect r c m i k x : rectangle r c m -> (i < r)%nat -> (k < c)%nat -> exists m', set2 m (Z.of_nat i) (Z.of_nat k) x = Ok m' /\ rectangle r c m' /\
  forall i' k', at2 m' i' k' = if Nat.eqb i' i && Nat.eqb k' k then x else at2 m i' k'.
Proof.
  intros (L & F) Hi Hk. unfold set2. rewrite zidx_nat, (idx_nth _ _ []) by lia. cbn [bind].
  assert (forall A (l : list A) q y, (q < length l)%nat -> zupd l (Z.of_nat q) y = upd l q y) as ZU.
  { intros A l q y Hq. unfold zupd. rewrite Nat2Z.id. destruct (Z.leb_spec 0 (Z.of_nat q)); [|lia]. destruct (Z.ltb_spec (Z.of_nat q) (Z.of_nat (length l))); [reflexivity|lia]. }
  rewrite ZU by (rewrite F; assumption). destruct (upd_some (nth i m []) k x) as (r' & E'); [rewrite F; assumption|]. rewrite E'. cbn [bind]. rewrite ZU by lia.
  destruct (upd_some m i r') as (m' & E); [lia|]. exists m'. split; [exact E|]. destruct (upd_spec _ _ _ _ E') as (L' & _ & N'). destruct (upd_spec _ _ _ _ E) as (L2 & _ & N2). split.
  - split; [lia|]. intros q Hq. rewrite N2. destruct (Nat.eqb_spec q i) as [->|]; [rewrite L'|]; now apply F.
  - intros i' k'. unfold at2. rewrite N2. destruct (Nat.eqb_spec i' i) as [->|]; cbn [andb]; [apply N'|reflexivity].
Qed.
(** [swap_rows_2d] exchanges two rows of a rectangular matrix and leaves the
    others alone. *)
Theorem C63_swap_2d : forall r c m i j, rectangle r c m -> (i < r)%nat -> (j < r)%nat -> exists m', swap_rows_2d m i j = Ok m' /\ rectangle r c m' /\
  forall q k, (k < c)%nat -> at2 m' q k = at2 m (exchange i j q) k.
Proof.
  intros r c m i j R Hi Hj. unfold swap_rows_2d. destruct (Nat.eqb_spec i j) as [->|N].
  - exists m. split; [reflexivity|]. split; [exact R|]. intros q k _. unfold exchange. destruct (Nat.eqb_spec q j) as [->|]; reflexivity.
  - rewrite (idx_nth m 0 []) by (destruct R; lia). cbn [bind]. assert (length (nth 0 m []) = c) as -> by (apply R; lia).
    destruct (forN_ind (fun col m' => rectangle r c m' /\ forall q k, (k < c)%nat -> at2 m' q k = if Nat.ltb k col then at2 m (exchange i j q) k else at2 m q k)
      (fun col m => temp <- get2 m (Z.of_nat i) (Z.of_nat col) ;; x <- get2 m (Z.of_nat j) (Z.of_nat col) ;; m <- set2 m (Z.of_nat i) (Z.of_nat col) x ;; set2 m (Z.of_nat j) (Z.of_nat col) temp) c 0 m) as (m' & E & R' & H).
    + split; [exact R|]. intros q k _. now destruct k.
    + intros col m1 Hc (R1 & H1). rewrite !(get2_rect r c) by (assumption || lia). cbn [bind].
      destruct (set2_rect r c m1 i col (at2 m1 j col) R1 Hi ltac:(lia)) as (m2 & E2 & R2 & H2). rewrite E2. cbn [bind].
      destruct (set2_rect r c m2 j col (at2 m1 i col) R2 Hj ltac:(lia)) as (m3 & E3 & R3 & H3). exists m3. split; [exact E3|]. split; [exact R3|].
      intros q k Hk. rewrite H3, H2, !H1 by lia. rewrite Nat.ltb_irrefl.
      destruct (Nat.ltb_spec k (S col)), (Nat.ltb_spec k col); destruct (Nat.eqb_spec k col) as [->|]; try lia; rewrite ?andb_false_r; try reflexivity. rewrite !andb_true_r.
      unfold exchange. destruct (Nat.eqb_spec q i) as [Ei|Ni]; destruct (Nat.eqb_spec q j) as [Ej|Nj]; try congruence.
    + exists m'. split; [exact E|]. split; [exact R'|]. intros q k Hk. rewrite H by exact Hk. destruct (Nat.ltb_spec k (0 + c)); [reflexivity|lia].
Qed.
(** The system [x + y = 3, x - y = 1] is regular and makes [solve] panic; a zero
    first column gives [None]; exchanging rows works. *)
Example C63_example :
  let a := [[f1; f1]; [f1; fneg f1]] in let b := [fofZ 3; f1] in
  square 2 a /\ fits b /\ (forall x, In x (column0 a) -> nn x) /\ (exists x, In x (column0 a) /\ feqb x f0 = false) /\
  solve usize_chk 20 a b = Some Panic /\ solve usize_wrapping 20 a b = Some Panic /\
  solve usize_chk 20 [[f0; f1]; [f0; f1]] b = Some (Ok ([[f0; f1]; [f0; f1]], b, None)) /\
  swap_rows_2d a 0 1 = Ok [[f1; fneg f1]; [f1; f1]] /\ swap_rows_1d b 0 2 = Panic.
Proof.
  cbv zeta. split; [split; [reflexivity|repeat constructor]|]. split; [unfold fits, usize_max; cbn; lia|]. split; [intros x [<-|[<-|[]]]; reflexivity|].
  split; [exists f1; split; [now left|reflexivity]|]. repeat split; reflexivity.
Qed.
