(** Outcome of a Rust call: a value, or a panic.

    Panics modelled: slice or [Vec] index out of bounds, [Option::unwrap] on
    [None], integer overflow and underflow in a build with overflow checks
    (the default [dev] and [test] profiles), division by zero. *)
From Coq Require Import List ZArith Lia Bool.
Import ListNotations.

Inductive res (A : Type) : Type :=
| Ok (a : A)
| Panic.
Arguments Ok {A} a.
Arguments Panic {A}.

Definition bind {A B} (m : res A) (k : A -> res B) : res B :=
  match m with Ok a => k a | Panic => Panic end.

Declare Scope res_scope.
Notation "x <- m ;; k" := (bind m (fun x => k))
  (at level 61, m at next level, right associativity) : res_scope.
Notation "' p <- m ;; k" := (bind m (fun p => k))
  (at level 61, p pattern, m at next level, right associativity) : res_scope.
Open Scope res_scope.

(** [v[i]] on a [Vec]: panics out of bounds. *)
Definition idx {A} (l : list A) (i : nat) : res A :=
  match nth_error l i with Some a => Ok a | None => Panic end.

(** [v[i] = a]: panics out of bounds. *)
Fixpoint upd {A} (l : list A) (i : nat) (a : A) : res (list A) :=
  match l, i with
  | [], _ => Panic
  | _ :: t, O => Ok (a :: t)
  | h :: t, S j => t' <- upd t j a ;; Ok (h :: t')
  end.

(** [a - b] on [usize] with overflow checks. *)
Definition usub (a b : nat) : res nat :=
  if Nat.leb b a then Ok (a - b)%nat else Panic.

(** [Option::unwrap]. *)
Definition unwrap {A} (o : option A) : res A :=
  match o with Some a => Ok a | None => Panic end.

(** [assert!(b)] and [panic!] guards. *)
Definition rassert (b : bool) : res unit := if b then Ok tt else Panic.

(** [i32] arithmetic with overflow checks. *)
Definition i32_min : Z := (-2147483648)%Z.
Definition i32_max : Z := 2147483647%Z.
Definition i32_chk (z : Z) : res Z :=
  if (Z.leb i32_min z && Z.leb z i32_max)%bool then Ok z else Panic.

(** Casts: [z as i32] from a wider integer, [z as usize] from [i32]. *)
Definition i32_wrap (z : Z) : Z := ((z + 2147483648) mod 4294967296 - 2147483648)%Z.
Definition usize_max : Z := 18446744073709551615%Z.
Definition usize_wrap (z : Z) : Z := (z mod 18446744073709551616)%Z.
(** Checked [usize] arithmetic carried out in [Z]. *)
Definition usize_chk (z : Z) : res Z :=
  if (Z.leb 0 z && Z.leb z usize_max)%bool then Ok z else Panic.

(** [for i in lo..lo+n] without early exit. *)
Fixpoint forN {S} (n lo : nat) (s : S) (body : nat -> S -> res S) : res S :=
  match n with
  | O => Ok s
  | Datatypes.S k => s' <- body lo s ;; forN k (Datatypes.S lo) s' body
  end.
(** [for i in lo..lo+n] whose body may [return r] ([inr r]). *)
Fixpoint forR {S R} (n lo : nat) (s : S) (body : nat -> S -> res (S + R)) : res (S + R) :=
  match n with
  | O => Ok (inl s)
  | Datatypes.S k =>
      o <- body lo s ;;
      match o with
      | inl s' => forR k (Datatypes.S lo) s' body
      | inr r => Ok (inr r)
      end
  end.

Lemma forN_ind {S} (P : nat -> S -> Prop) body n lo s :
  P lo s ->
  (forall i s, lo <= i < lo + n -> P i s -> exists s', body i s = Ok s' /\ P (Datatypes.S i) s') ->
  exists s', forN n lo s body = Ok s' /\ P (lo + n) s'.
Proof.
  revert lo s. induction n as [|n IH]; intros lo s H0 H; cbn [forN].
  - exists s. now rewrite Nat.add_0_r.
  - destruct (H lo s) as (s' & E & P'); [lia|assumption|]. rewrite E. cbn [bind].
    destruct (IH (Datatypes.S lo) s' P') as (s2 & E2 & P2).
    + intros i s0 Hi. apply H. lia.
    + exists s2. split; [assumption|]. now rewrite Nat.add_succ_r.
Qed.
Lemma forR_ind {S R} (P : nat -> S -> Prop) (Q : R -> Prop) body n lo s :
  P lo s ->
  (forall i s, lo <= i < lo + n -> P i s ->
     (exists s', body i s = Ok (inl s') /\ P (Datatypes.S i) s') \/
     (exists r, body i s = Ok (inr r) /\ Q r)) ->
  (exists s', forR n lo s body = Ok (inl s') /\ P (lo + n) s') \/
  (exists r, forR n lo s body = Ok (inr r) /\ Q r).
Proof.
  revert lo s. induction n as [|n IH]; intros lo s H0 H; cbn [forR].
  - left. exists s. now rewrite Nat.add_0_r.
  - destruct (H lo s) as [(s' & E & P')|(r & E & Qr)]; [lia|assumption| |]; rewrite E; cbn [bind].
    + rewrite Nat.add_succ_r. apply IH; [assumption|]. intros i s0 Hi. apply H. lia.
    + right. now exists r.
Qed.

Lemma idx_ok {A} (l : list A) i : i < length l -> exists a, idx l i = Ok a /\ nth_error l i = Some a.
Proof.
  intros H. unfold idx. destruct (nth_error l i) eqn:E; [eauto|].
  apply nth_error_None in E. lia.
Qed.
Lemma idx_nth {A} (l : list A) i d : i < length l -> idx l i = Ok (nth i l d).
Proof. intros H. unfold idx. now rewrite (nth_error_nth' l d H). Qed.
Lemma idx_panic {A} (l : list A) i : length l <= i -> idx l i = Panic.
Proof. intros H. unfold idx. apply nth_error_None in H. now rewrite H. Qed.

Lemma upd_ok {A} (l : list A) i a : i < length l ->
  upd l i a = Ok (firstn i l ++ a :: skipn (S i) l).
Proof.
  revert i. induction l as [|h l IH]; intros [|i] H; cbn in *; try lia; auto.
  rewrite IH by lia. reflexivity.
Qed.
Lemma upd_panic {A} (l : list A) i a : length l <= i -> upd l i a = Panic.
Proof. revert i. induction l as [|h l IH]; intros [|i] H; cbn in *; auto; try lia. rewrite IH by lia. reflexivity. Qed.
Lemma upd_spec {A} (l : list A) i a l' : upd l i a = Ok l' ->
  length l' = length l /\ i < length l /\
  forall j d, nth j l' d = if Nat.eqb j i then a else nth j l d.
Proof.
  revert i l'. induction l as [|h l IH]; intros [|i] l' H; cbn in H; try discriminate.
  - inversion H; subst. cbn. split; [reflexivity|split; [lia|]]. intros [|j] d; reflexivity.
  - destruct (upd l i a) as [t|] eqn:E; [|discriminate]. inversion H; subst.
    destruct (IH _ _ E) as (L & B & N). cbn. split; [lia|split; [lia|]].
    intros [|j] d; [reflexivity|]. cbn. apply N.
Qed.
Lemma upd_some {A} (l : list A) i a : i < length l -> exists l', upd l i a = Ok l'.
Proof. intros H. rewrite upd_ok by assumption. eauto. Qed.
Lemma nth_ext_eq {A} (l l' : list A) d : length l = length l' ->
  (forall i, i < length l -> nth i l d = nth i l' d) -> l = l'.
Proof. intros H E. apply nth_ext with d d; auto. Qed.
