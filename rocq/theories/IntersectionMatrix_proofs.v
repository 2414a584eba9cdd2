(** Lemmas about the intersection matrix. *)
From Coq Require Import ZArith Bool List String Ascii Lia Permutation ZifyBool.
From Verif Require Import Base IntersectionMatrix_model IntersectionMatrix_spec.
Import ListNotations.
Open Scope Z_scope.

Ltac bsplit := repeat match goal with
  | |- context [Z.eqb ?a ?b] => destruct (Z.eqb_spec a b)
  | |- context [Z.geb ?a ?b] => rewrite (Z.geb_leb a b)
  | |- context [Z.leb ?a ?b] => destruct (Z.leb_spec a b)
  end.

Lemma transpose_spec m : im_transpose m = Ok (swapped m).
Proof. destruct m. reflexivity. Qed.

Lemma is_true_iff v : is_true v = true <-> v >= 0 \/ v = -2.
Proof. unfold is_true, dTRUE. bsplit; cbn; split; intros; auto; try discriminate; lia. Qed.

(** ** Matching *)
Lemma sat_char v a : matches_i32_char v (Z.of_nat (nat_of_ascii a)) = true <-> sat v a.
Proof.
  split.
  - unfold matches_i32_char, SYM_DONTCARE, SYM_TRUE, SYM_FALSE, SYM_P, SYM_L, SYM_A, dTRUE, dFALSE, dP, dL, dA.
    assert (forall k, (k < 256)%nat -> Z.of_nat (nat_of_ascii a) = Z.of_nat k -> a = ascii_of_nat k) as H.
    { intros k _ E. rewrite <- (ascii_nat_embedding a). f_equal. lia. }
    set (n := Z.of_nat (nat_of_ascii a)) in *.
    destruct (Z.eqb_spec n 42). { rewrite (H 42%nat); [intros _; apply sat_any|lia|lia]. }
    destruct (Z.eqb_spec n 84).
    { cbn [andb]. intros E. rewrite (H 84%nat); [apply sat_T|lia|lia].
      destruct (Z.geb_spec v 0); cbn in *; [lia|].
      destruct (Z.eqb_spec v (-2)); cbn in *; [auto|].
      destruct (Z.eqb_spec n 70), (Z.eqb_spec n 48), (Z.eqb_spec n 49), (Z.eqb_spec n 50); cbn in *; try lia; discriminate. }
    cbn [andb]. destruct (Z.eqb_spec n 70) as [E|_]; cbn [andb].
    { destruct (Z.eqb_spec v (-1)) as [->|_].
      - intros _. rewrite (H 70%nat); [apply sat_F|lia|exact E].
      - rewrite E. discriminate. }
    destruct (Z.eqb_spec n 48) as [E|_]; cbn [andb].
    { destruct (Z.eqb_spec v 0) as [->|_].
      - intros _. rewrite (H 48%nat); [apply sat_0|lia|exact E].
      - rewrite E. discriminate. }
    destruct (Z.eqb_spec n 49) as [E|_]; cbn [andb].
    { destruct (Z.eqb_spec v 1) as [->|_].
      - intros _. rewrite (H 49%nat); [apply sat_1|lia|exact E].
      - rewrite E. discriminate. }
    destruct (Z.eqb_spec n 50) as [E|_]; cbn [andb].
    { destruct (Z.eqb_spec v 2) as [->|_].
      - intros _. rewrite (H 50%nat); [apply sat_2|lia|exact E].
      - discriminate. }
    discriminate.
  - intros S. inversion S; subst; try reflexivity.
    unfold matches_i32_char. cbn. destruct (Z.geb_spec v 0), (Z.eqb_spec v dTRUE); unfold dTRUE in *; cbn; auto; lia.
Qed.
Lemma sat_char' v c : matches_i32_char v c = true <-> exists a, c = Z.of_nat (nat_of_ascii a) /\ sat v a.
Proof.
  split.
  - intros H.
    assert (0 <= c < 256) as B.
    { unfold matches_i32_char, SYM_DONTCARE, SYM_TRUE, SYM_FALSE, SYM_P, SYM_L, SYM_A in H.
      destruct (Z.eqb_spec c 42); [lia|]. destruct (Z.eqb_spec c 84); [lia|]. destruct (Z.eqb_spec c 70); [lia|].
      destruct (Z.eqb_spec c 48); [lia|]. destruct (Z.eqb_spec c 49); [lia|]. destruct (Z.eqb_spec c 50); [lia|]. discriminate. }
    exists (ascii_of_nat (Z.to_nat c)).
    assert (c = Z.of_nat (nat_of_ascii (ascii_of_nat (Z.to_nat c)))) as E by (rewrite nat_ascii_embedding; lia).
    split; auto. apply sat_char. now rewrite <- E.
  - intros (a & -> & S). now apply sat_char.
Qed.

Definition match_at (m : IM) (s : rstring) (k : nat) : bool :=
  match nth_error s k with Some ch => matches_i32_char (nth k (cells m) 0) ch | None => false end.

Lemma matches_compute m s : str_len s = 9%nat ->
  matches_string m s = Ok (forallb (match_at m s) (seq 0 9)).
Proof.
  intros L. unfold matches_string. rewrite L. destruct m as [a b c d e f g h i].
  cbn [forR bind Nat.eqb negb Nat.mul Nat.add im_get ii ib ie IntersectionMatrix_model.bi bb be ei eb ee].
  unfold match_at, cells. cbn [seq forallb].
  cbn [nth ii ib ie IntersectionMatrix_model.bi bb be ei eb ee].
  do 9 (match goal with |- context [nth_error s ?k] =>
      destruct (nth_error s k); [|reflexivity] end;
    match goal with |- context [matches_i32_char ?v ?w] =>
      destruct (matches_i32_char v w); cbn [negb andb bind]; [|reflexivity] end).
  reflexivity.
Qed.

Lemma utf8_pos c : (1 <= utf8_len c)%nat.
Proof. unfold utf8_len. destruct (c <? 128), (c <? 2048), (c <? 65536); lia. Qed.
Lemma str_len_ge (s : rstring) : (List.length s <= str_len s)%nat.
Proof. induction s as [|c s IH]; cbn; [lia|]. pose proof (utf8_pos c). unfold str_len in IH. lia. Qed.
Lemma ascii_str_len (s : rstring) : Forall (fun c => c < 128) s -> str_len s = List.length s.
Proof.
  induction 1 as [|c s H _ IH]; cbn; [reflexivity|]. unfold str_len in IH. rewrite IH.
  unfold utf8_len. destruct (Z.ltb_spec c 128); lia.
Qed.

Definition fits_codes (m : IM) (s : rstring) : Prop :=
  Forall2 (fun v c => matches_i32_char v c = true) (cells m) s.
Lemma matches_char_ascii v c : matches_i32_char v c = true -> c < 128.
Proof.
  unfold matches_i32_char, SYM_DONTCARE, SYM_TRUE, SYM_FALSE, SYM_P, SYM_L, SYM_A. intros H.
  destruct (Z.eqb_spec c 42); [lia|]. destruct (Z.eqb_spec c 84); [lia|]. destruct (Z.eqb_spec c 70); [lia|].
  destruct (Z.eqb_spec c 48); [lia|]. destruct (Z.eqb_spec c 49); [lia|]. destruct (Z.eqb_spec c 50); [lia|]. discriminate.
Qed.
Lemma matches_string_codes m s :
  exists b, matches_string m s = Ok b /\ (b = true <-> fits_codes m s).
Proof.
  destruct (Nat.eq_dec (str_len s) 9) as [L|L].
  - rewrite matches_compute by assumption. eexists. split; [reflexivity|].
    pose proof (str_len_ge s) as H. rewrite L in H. clear L. unfold fits_codes, cells. cbn [seq forallb].
    unfold match_at, cells. split.
    + intros H'. rewrite !andb_true_iff in H'.
      do 9 (destruct s as [|? s]; [cbn in H'; intuition discriminate|]).
      destruct s; [|cbn in H; lia]. cbn in H'.
      repeat apply Forall2_cons; try apply Forall2_nil; tauto.
    + intros F. do 9 (inversion F as [|? ? ? ? ? F']; subst; clear F; rename F' into F).
      inversion F; subst. cbn [nth_error nth]. rewrite !andb_true_iff. tauto.
  - exists false. unfold matches_string. destruct (Nat.eqb_spec (str_len s) 9); [contradiction|].
    split; [reflexivity|]. split; [discriminate|]. intros F. exfalso. apply L.
    rewrite ascii_str_len.
    + do 9 (inversion F as [|? ? ? ? _ F1]; subst; clear F; rename F1 into F). inversion F. reflexivity.
    + clear L n. unfold fits_codes in F. induction F; constructor; eauto using matches_char_ascii.
Qed.
Lemma fits_str m p : fits_codes m (str p) <-> fits m p.
Proof.
  unfold fits_codes, fits, str. generalize (cells m), (list_ascii_of_string p).
  intros l1 l2. revert l2. induction l1 as [|v l1 IH]; intros [|a l2]; cbn; split; intros H; inversion H; subst; constructor.
  - now apply sat_char.
  - now apply IH.
  - now apply sat_char.
  - now apply IH.
Qed.
Lemma matches_string_fits m p : exists b, matches_string m (str p) = Ok b /\ (b = true <-> fits m p).
Proof. destruct (matches_string_codes m (str p)) as (b & E & H). exists b. split; auto. now rewrite H, fits_str. Qed.
Lemma matches_ok_true m p : matches_string m (str p) = Ok true <-> fits m p.
Proof.
  destruct (matches_string_fits m p) as (b & E & H). rewrite E, <- H. split; congruence.
Qed.

Lemma sat_star v : sat v "*" <-> True. Proof. split; auto using sat_any. Qed.
Lemma sat_Tt v : sat v "T" <-> is_true v = true.
Proof. rewrite is_true_iff. split; [now inversion 1|apply sat_T]. Qed.
Lemma sat_Ff v : sat v "F" <-> v = -1.
Proof. split; [now inversion 1|intros ->; apply sat_F]. Qed.
Lemma sat_00 v : sat v "0" <-> v = 0.
Proof. split; [now inversion 1|intros ->; apply sat_0]. Qed.
Lemma sat_11 v : sat v "1" <-> v = 1.
Proof. split; [now inversion 1|intros ->; apply sat_1]. Qed.
Lemma F2_cons {A B} (R : A -> B -> Prop) a l b l' : Forall2 R (a :: l) (b :: l') <-> R a b /\ Forall2 R l l'.
Proof. split; [inversion 1; auto|intros []; now constructor]. Qed.
Lemma F2_nil {A B} (R : A -> B -> Prop) : Forall2 R [] [] <-> True.
Proof. split; auto. Qed.
(** Normalises [fits m literal] to a conjunction on the cells. *)
Ltac fits_simpl := unfold fits, cells; cbn [list_ascii_of_string];
  rewrite ?F2_cons, ?F2_nil, ?sat_star, ?sat_Tt, ?sat_Ff, ?sat_00, ?sat_11.

Lemma fits_one_cons m p ps : fits_one m (p :: ps) <-> fits m p \/ fits_one m ps.
Proof.
  unfold fits_one. split.
  - intros (q & [->|I] & F); eauto.
  - intros [F|(q & I & F)]; [exists p|exists q]; cbn; auto.
Qed.
Lemma fits_one_nil m : fits_one m [] <-> False.
Proof. split; [intros (q & [] & _)|tauto]. Qed.

(** ** Text *)
Lemma set_string_step_none s m i n : (List.length s <= i)%nat ->
  forN n i m (fun i m =>
    match nth_error s i with
    | Some ch => match to_dimension_value ch with Some v => im_set m (i / 3) (i mod 3) v | None => Ok m end
    | None => Ok m
    end) = Ok m.
Proof.
  revert m i. induction n as [|n IH]; intros m i H; cbn [forN]; [reflexivity|].
  assert (nth_error s i = None) as -> by now apply nth_error_None. cbn [bind]. apply IH. lia.
Qed.
(** Symbols are written one after another, from position [k]. *)
Fixpoint write_syms (m : IM) (k : nat) (s : rstring) : res IM :=
  match s with
  | [] => Ok m
  | ch :: t =>
      m' <- match to_dimension_value ch with Some v => im_set m (k / 3) (k mod 3) v | None => Ok m end ;;
      write_syms m' (S k) t
  end.
Lemma set_string_write m s : set_string m s = write_syms m 0 s.
Proof.
  unfold set_string. pose proof (str_len_ge s) as H.
  assert (forall pre t m n, s = pre ++ t -> (List.length t <= n)%nat ->
    forN n (List.length pre) m (fun i m =>
      match nth_error s i with
      | Some ch => match to_dimension_value ch with Some v => im_set m (i / 3) (i mod 3) v | None => Ok m end
      | None => Ok m
      end) = write_syms m (List.length pre) t) as G.
  { intros pre t. revert pre. induction t as [|ch t IH]; intros pre m' n E L.
    - cbn [write_syms]. apply set_string_step_none. rewrite E, app_nil_r. lia.
    - destruct n as [|n]; [cbn in L; lia|]. cbn [forN write_syms].
      assert (nth_error s (List.length pre) = Some ch) as ->.
      { rewrite E, nth_error_app2, Nat.sub_diag by lia. reflexivity. }
      destruct (match to_dimension_value ch with Some v => im_set m' (List.length pre / 3) (List.length pre mod 3) v | None => Ok m' end) as [m2|]; [|reflexivity].
      cbn [bind]. specialize (IH (pre ++ [ch]) m2 n). rewrite app_length in IH. cbn [List.length] in IH.
      rewrite Nat.add_1_r in IH. apply IH; [rewrite <- app_assoc; assumption|cbn in L; lia]. }
  apply (G [] s m); auto.
Qed.
Lemma im_set_panic m r c v : (3 <= r)%nat -> im_set m r c v = Panic.
Proof. intros H. destruct m. destruct r as [|[|[|r]]]; try lia. reflexivity. Qed.
Lemma write_syms_beyond m k s : (9 <= k)%nat ->
  write_syms m k s = if forallb (fun ch => match to_dimension_value ch with Some _ => false | None => true end) s then Ok m else Panic.
Proof.
  revert m k. induction s as [|ch s IH]; intros m k H; cbn [write_syms forallb]; [reflexivity|].
  destruct (to_dimension_value ch) as [v|]; cbn [andb].
  - rewrite im_set_panic; [reflexivity|]. apply Nat.div_le_lower_bound; lia.
  - cbn [bind]. apply IH. lia.
Qed.

Lemma reads_value s v : reads s v <-> to_dimension_value s = Some v.
Proof.
  unfold reads. cbn. split.
  - intros H. repeat (destruct H as [H|H]; [inversion H; subst; reflexivity|]). destruct H.
  - unfold to_dimension_value, to_ascii_uppercase, SYM_FALSE, SYM_TRUE, SYM_DONTCARE, SYM_P, SYM_L, SYM_A,
      dFALSE, dTRUE, dDONTCARE, dP, dL, dA.
    set (u := if (97 <=? s) && (s <=? 122) then s - 32 else s).
    assert ((u = s /\ (s < 97 \/ 122 < s)) \/ (u = s - 32 /\ 97 <= s <= 122)) as U.
    { unfold u. destruct (Z.leb_spec 97 s), (Z.leb_spec s 122); cbn; lia. }
    destruct (Z.eqb_spec u 70). { intros E. inversion E; subst v. assert (s = 70 \/ s = 102) as [-> | ->] by lia; tauto. }
    destruct (Z.eqb_spec u 84). { intros E. inversion E; subst v. assert (s = 84 \/ s = 116) as [-> | ->] by lia; tauto. }
    destruct (Z.eqb_spec u 42). { intros E. inversion E; subst v. assert (s = 42) as -> by lia; tauto. }
    destruct (Z.eqb_spec u 48). { intros E. inversion E; subst v. assert (s = 48) as -> by lia; tauto. }
    destruct (Z.eqb_spec u 49). { intros E. inversion E; subst v. assert (s = 49) as -> by lia; tauto. }
    destruct (Z.eqb_spec u 50). { intros E. inversion E; subst v. assert (s = 50) as -> by lia; tauto. }
    discriminate.
Qed.
Lemma sym_of_symbol v s : sym_of v s <-> to_dimension_symbol v = Some s.
Proof.
  unfold sym_of. cbn. split.
  - intros H. repeat (destruct H as [H|H]; [inversion H; subst; reflexivity|]). destruct H.
  - unfold to_dimension_symbol, SYM_FALSE, SYM_TRUE, SYM_DONTCARE, SYM_P, SYM_L, SYM_A, dFALSE, dTRUE, dDONTCARE, dP, dL, dA.
    destruct (Z.eqb_spec v (-1)). { intros E; inversion E; subst; tauto. }
    destruct (Z.eqb_spec v (-2)). { intros E; inversion E; subst; tauto. }
    destruct (Z.eqb_spec v (-3)). { intros E; inversion E; subst; tauto. }
    destruct (Z.eqb_spec v 0). { intros E; inversion E; subst; tauto. }
    destruct (Z.eqb_spec v 1). { intros E; inversion E; subst; tauto. }
    destruct (Z.eqb_spec v 2). { intros E; inversion E; subst; tauto. }
    discriminate.
Qed.
Lemma to_string_ok m s : Forall2 sym_of (cells m) s -> im_to_string m = Ok s.
Proof.
  intros F. destruct m as [a b c d e f g h i]. unfold cells in F.
  cbn [ii ib ie IntersectionMatrix_model.bi bb be ei eb ee] in F.
  do 9 (let S := fresh "S" in inversion F as [|? ? ? ? S F1]; subst; clear F; rename F1 into F; apply sym_of_symbol in S).
  inversion F; subst. unfold im_to_string.
  cbn [forN bind im_get ii ib ie IntersectionMatrix_model.bi bb be ei eb ee].
  repeat match goal with H : to_dimension_symbol _ = Some _ |- _ => rewrite H; clear H; cbn [bind app] end.
  reflexivity.
Qed.
Lemma valid_dim_sym v : valid_dim v -> exists s, sym_of v s.
Proof.
  unfold valid_dim. intros H. assert (v = -3 \/ v = -2 \/ v = -1 \/ v = 0 \/ v = 1 \/ v = 2) as C by lia.
  decompose [or] C; subst; (eexists; apply sym_of_symbol; reflexivity).
Qed.
Lemma sym_reads v s : sym_of v s -> reads s v.
Proof. rewrite sym_of_symbol, reads_value. intros H. apply sym_of_symbol in H. unfold sym_of in H. cbn in H.
  repeat (destruct H as [H|H]; [inversion H; subst; reflexivity|]). destruct H. Qed.
Lemma parse_nine m0 m s : Forall2 reads s (cells m) -> set_string m0 s = Ok m.
Proof.
  intros F. rewrite set_string_write. destruct m as [a b c d e f g h i]. unfold cells in F.
  cbn [ii ib ie IntersectionMatrix_model.bi bb be ei eb ee] in F.
  do 9 (let S := fresh "S" in inversion F as [|? ? ? ? S F1]; subst; clear F; rename F1 into F; apply reads_value in S).
  inversion F; subst. destruct m0. cbn [write_syms].
  repeat match goal with H : to_dimension_value _ = Some _ |- _ => rewrite H; clear H; cbn [bind] end.
  reflexivity.
Qed.

(** ** Accumulation *)
Definition zip_max (m n : IM) : IM :=
  mkIM (Z.max (ii m) (ii n)) (Z.max (ib m) (ib n)) (Z.max (ie m) (ie n))
       (Z.max (bi m) (bi n)) (Z.max (bb m) (bb n)) (Z.max (be m) (be n))
       (Z.max (ei m) (ei n)) (Z.max (eb m) (eb n)) (Z.max (ee m) (ee n)).
Lemma set_at_least_eq m r c v x : im_get m r c = Ok x -> set_at_least m r c v = im_set m r c (Z.max x v).
Proof.
  intros E. unfold set_at_least. rewrite E. cbn [bind]. destruct (Z.ltb_spec x v).
  - f_equal. lia.
  - replace (Z.max x v) with x by lia. destruct m.
    destruct r as [|[|[|r]]], c as [|[|[|c]]]; cbn in *; inversion E; subst; reflexivity.
Qed.
Lemma im_add_max m n : im_add m n = Ok (zip_max m n).
Proof.
  destruct m as [a b c d e f g h i], n as [a' b' c' d' e' f' g' h' i']. unfold im_add. cbn [forN bind im_get ii ib ie IntersectionMatrix_model.bi bb be ei eb ee].
  do 9 (erewrite set_at_least_eq by reflexivity; cbn [im_set bind ii ib ie IntersectionMatrix_model.bi bb be ei eb ee]).
  reflexivity.
Qed.
Lemma set_at_least_cell m r c v m' : set_at_least m r c v = Ok m' ->
  forall r' c' x, im_get m r' c' = Ok x ->
  im_get m' r' c' = Ok (if Nat.eqb r r' && Nat.eqb c c' then Z.max x v else x).
Proof.
  intros H r' c' x E. destruct (im_get m r c) as [y|] eqn:G.
  - rewrite (set_at_least_eq _ _ _ _ _ G) in H. destruct m.
    destruct r as [|[|[|r]]], c as [|[|[|c]]]; cbn in G; inversion G; subst; cbn in H; inversion H; subst;
    destruct r' as [|[|[|r']]], c' as [|[|[|c']]]; cbn in E; inversion E; subst; reflexivity.
  - unfold set_at_least in H. rewrite G in H. discriminate.
Qed.
Lemma im_get_ok m r c : (r < 3)%nat -> (c < 3)%nat -> exists x, im_get m r c = Ok x.
Proof. intros H1 H2. destruct r as [|[|[|r]]], c as [|[|[|c]]]; try lia; cbn; eauto. Qed.
Lemma set_at_least_ok m r c v : (r < 3)%nat -> (c < 3)%nat -> exists m', set_at_least m r c v = Ok m'.
Proof.
  intros H1 H2. destruct (im_get_ok m r c H1 H2) as [x E]. rewrite (set_at_least_eq _ _ _ _ _ E).
  destruct m. destruct r as [|[|[|r]]], c as [|[|[|c]]]; try lia; cbn; eauto.
Qed.
Lemma im_ext m m' : (forall r c, (r < 3)%nat -> (c < 3)%nat -> im_get m r c = im_get m' r c) -> m = m'.
Proof.
  intros H. destruct m, m'.
  pose proof (H 0%nat 0%nat ltac:(lia) ltac:(lia)). pose proof (H 0%nat 1%nat ltac:(lia) ltac:(lia)). pose proof (H 0%nat 2%nat ltac:(lia) ltac:(lia)).
  pose proof (H 1%nat 0%nat ltac:(lia) ltac:(lia)). pose proof (H 1%nat 1%nat ltac:(lia) ltac:(lia)). pose proof (H 1%nat 2%nat ltac:(lia) ltac:(lia)).
  pose proof (H 2%nat 0%nat ltac:(lia) ltac:(lia)). pose proof (H 2%nat 1%nat ltac:(lia) ltac:(lia)). pose proof (H 2%nat 2%nat ltac:(lia) ltac:(lia)).
  cbn in *. congruence.
Qed.
Definition upd_here (r c : nat) (u : upd_t) : bool := let '((r', c'), _) := u in Nat.eqb r' r && Nat.eqb c' c.
Lemma run_updates_cell us : forall m,
  Forall (fun u => (fst (fst u) < 3)%nat /\ (snd (fst u) < 3)%nat) us ->
  exists m', run_updates m us = Ok m' /\
  forall r c x, im_get m r c = Ok x ->
    im_get m' r c = Ok (fold_right Z.max x (map snd (filter (upd_here r c) us))).
Proof.
  induction us as [|[[r0 c0] v0] us IH]; intros m F; cbn [run_updates].
  - exists m. split; auto.
  - inversion F as [|? ? [H1 H2] F']; subst. cbn in H1, H2.
    destruct (set_at_least_ok m r0 c0 v0 H1 H2) as [m1 E1]. rewrite E1. cbn [bind].
    destruct (IH m1 F') as (m' & E & H). exists m'. split; auto.
    intros r c x G. rewrite (H r c _ (set_at_least_cell _ _ _ _ _ E1 r c x G)). f_equal.
    cbn [filter upd_here]. destruct (Nat.eqb r0 r && Nat.eqb c0 c); [|reflexivity].
    cbn [map fold_right snd]. generalize (map snd (filter (upd_here r c) us)) as l.
    induction l as [|y l IHl]; cbn; [lia|]. rewrite IHl. lia.
Qed.
