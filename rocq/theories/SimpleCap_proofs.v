(** [is_ccw] on simple rings. *)
From Coq Require Import ZArith Bool List Reals Lia Lra.
From Verif Require Import Base F64 F64Facts F64Err DD_spec Coordinate_model CoordSeq_model Orientation_model Orientation_spec
  Orientation_proofs Measure_spec Centroid_spec Simple_spec Simple_proofs Cap_proofs.
Import ListNotations.
Open Scope Z_scope.

Lemma same_pt_spec a b : reflect (a = b) (same_pt a b).
Proof.
  unfold same_pt. destruct (Z.eqb_spec (fst a) (fst b)), (Z.eqb_spec (snd a) (snd b)); constructor; try congruence.
  apply injective_projections; assumption.
Qed.
Definition closedZ (l : list (Z * Z)) : list (Z * Z) := match l with [] => [] | x :: m => x :: m ++ [x] end.
Definition rotZ (l : list (Z * Z)) : list (Z * Z) := match l with [] => [] | x :: m => m ++ [x] end.
Lemma map_closedZ l : map real_pt (closedZ l) = closed (map real_pt l).
Proof. destruct l; [reflexivity|]. symmetry. apply closed_map. Qed.
Lemma map_rotZ l : map real_pt (rotZ l) = rot (map real_pt l).
Proof. destruct l; [reflexivity|]. cbn. now rewrite map_app. Qed.
Lemma dedup_cons a b t : dedup (a :: b :: t) = if same_pt a b then dedup (b :: t) else a :: dedup (b :: t).
Proof. reflexivity. Qed.
Lemma dedup_head a t : exists m, dedup (a :: t) = a :: m.
Proof.
  revert a. induction t as [|b t IH]; intros a; [now exists []|]. rewrite dedup_cons. destruct (same_pt_spec a b) as [->|]; [apply IH|eauto].
Qed.
Lemma dedup_app A z b B : z <> b -> dedup (A ++ z :: b :: B) = dedup (A ++ [z]) ++ dedup (b :: B).
Proof.
  intros N. induction A as [|a A IH].
  - cbn [app]. rewrite dedup_cons. destruct (same_pt_spec z b); [contradiction|reflexivity].
  - destruct A as [|c A].
    + cbn [app] in *. rewrite (dedup_cons a z), (dedup_cons a z). destruct (same_pt a z); [exact IH|]. rewrite IH. reflexivity.
    + cbn [app] in *. rewrite (dedup_cons a c), (dedup_cons a c). destruct (same_pt a c); [exact IH|]. rewrite IH. reflexivity.
Qed.
Lemma dedup_snoc_same A z : dedup (A ++ [z; z]) = dedup (A ++ [z]).
Proof.
  induction A as [|a A IH].
  - cbn [app]. rewrite dedup_cons. destruct (same_pt_spec z z); [reflexivity|congruence].
  - destruct A as [|c A]; cbn [app] in *; rewrite !(dedup_cons a); destruct (same_pt a _); congruence.
Qed.
Lemma dedup_last A z : exists m, dedup (A ++ [z]) = m ++ [z].
Proof.
  induction A as [|a A (m & IH)]; [now exists []|]. destruct A as [|c A]; cbn [app] in *; rewrite dedup_cons; destruct (same_pt a _);
    [exists m; exact IH|exists (a :: m); now rewrite IH|exists m; exact IH|exists (a :: m); now rewrite IH].
Qed.
Lemma dedup_in l p : In p l -> In p (dedup l).
Proof.
  induction l as [|a l IH]; [easy|]. destruct l as [|b l]; [easy|]. rewrite dedup_cons. intros [<-|I].
  - destruct (same_pt_spec a b) as [<-|]; [|now left]. apply IH. now left.
  - destruct (same_pt a b); [now apply IH|right; now apply IH].
Qed.
Lemma in_dedup l p : In p (dedup l) -> In p l.
Proof.
  induction l as [|a l IH]; [easy|]. destruct l as [|b l]; [easy|]. rewrite dedup_cons. destruct (same_pt a b); [intros I; right; now apply IH|].
  intros [<-|I]; [now left|right; now apply IH].
Qed.
Lemma area2_dedup l : area2 (dedup l) = area2 l.
Proof.
  unfold area2. induction l as [|a l IH]; [reflexivity|]. destruct l as [|b l]; [reflexivity|]. rewrite dedup_cons.
  change (steps cross (a :: b :: l)) with (cross a b + steps cross (b :: l)). destruct (same_pt_spec a b) as [<-|N].
  - rewrite IH. unfold cross. lia.
  - destruct (dedup_head b l) as (m & E). rewrite E in *. change (steps cross (a :: b :: m)) with (cross a b + steps cross (b :: m)). now rewrite IH.
Qed.
Lemma steps_snoc f A y z : steps f (A ++ [y; z]) = steps f (A ++ [y]) + f y z.
Proof.
  induction A as [|a A IH]; [cbn; lia|]. destruct A as [|b A]; [cbn; lia|].
  change (steps f ((a :: b :: A) ++ [y; z])) with (f a b + steps f ((b :: A) ++ [y; z])).
  change (steps f ((a :: b :: A) ++ [y])) with (f a b + steps f ((b :: A) ++ [y])). rewrite IH. lia.
Qed.
Lemma area2_rot l : area2 (closedZ (rotZ l)) = area2 (closedZ l).
Proof.
  destruct l as [|x [|y m]]; [reflexivity..|]. cbn [rotZ closedZ app]. unfold area2.
  change (y :: (m ++ [x]) ++ [y]) with (((y :: m) ++ [x]) ++ [y]). rewrite <- app_assoc. cbn [app].
  change (y :: m ++ [x; y]) with ((y :: m) ++ [x; y]). rewrite steps_snoc.
  change (steps cross (x :: y :: m ++ [x])) with (cross x y + steps cross ((y :: m) ++ [x])). lia.
Qed.
Lemma closedZ_inj L x M : closedZ L = x :: M ++ [x] -> L = x :: M.
Proof.
  destruct L as [|z L]; [discriminate|]. cbn [closedZ]. intros E. injection E as -> E. apply app_inj_tail in E. destruct E as (-> & _). reflexivity.
Qed.
Lemma dedup_rot l L : dedup (closedZ l) = closedZ L -> (2 <= length (dedup (closedZ l)))%nat ->
  exists L', dedup (closedZ (rotZ l)) = closedZ L' /\ (L' = L \/ L' = rotZ L).
Proof.
  intros E Len. destruct l as [|x [|y m]].
  - cbn in Len. lia.
  - cbn [closedZ app] in Len. rewrite dedup_cons in Len. destruct (same_pt_spec x x); [cbn in Len; lia|congruence].
  - cbn [rotZ closedZ app] in *. destruct (same_pt_spec x y) as [<-|N].
    + exists L. split; [|now left]. rewrite dedup_cons in E. destruct (same_pt_spec x x); [|congruence].
      rewrite <- E. rewrite <- app_assoc. cbn [app]. exact (dedup_snoc_same (x :: m) x).
    + rewrite dedup_cons in E. destruct (same_pt_spec x y); [contradiction|].
      destruct (dedup_head y (m ++ [x])) as (M & EM). destruct (dedup_last (y :: m) x) as (M' & EM'). cbn [app] in EM'.
      destruct M' as [|y' M']. { rewrite EM in EM'. injection EM' as Q _. congruence. }
      rewrite EM in EM'. cbn [app] in EM'. injection EM' as <- EM'. subst M. rewrite EM in E.
      change (x :: y :: M' ++ [x]) with (x :: (y :: M') ++ [x]) in E. symmetry in E. apply closedZ_inj in E. subst L.
      exists (rotZ (x :: y :: M')). split; [|now right]. cbn [rotZ closedZ app]. rewrite <- !app_assoc. cbn [app].
      assert (x <> y) as N' by assumption. pose proof (dedup_app (y :: m) x y [] N') as D. cbn [app] in D. rewrite D, EM. cbn [app]. rewrite <- app_assoc. reflexivity.
Qed.
Definition simple_open (l : list (Z * Z)) : Prop := exists L, dedup (closedZ l) = closedZ L /\ (2 <= length (closedZ L))%nat /\ once (closed (map real_pt L)).
Lemma simple_open_rot l : simple_open l -> simple_open (rotZ l).
Proof.
  intros (L & E & Len & O). destruct (dedup_rot l L E) as (L' & E' & C); [now rewrite E|]. exists L'. split; [exact E'|]. destruct C as [-> | ->].
  - now split.
  - split; [|rewrite map_rotZ; now apply once_rot]. destruct L as [|x m]; [cbn in Len; lia|]. cbn [rotZ]. destruct m; cbn; rewrite ?app_length; cbn; lia.
Qed.
Lemma simple_open_iter k l : simple_open l -> simple_open (Nat.iter k rotZ l).
Proof. intros H. induction k as [|k IH]; [exact H|]. cbn. now apply simple_open_rot. Qed.
Lemma area2_iter k l : area2 (closedZ (Nat.iter k rotZ l)) = area2 (closedZ l).
Proof. induction k as [|k IH]; [reflexivity|]. cbn [Nat.iter nat_rect]. change (Nat.iter (S k) rotZ l) with (rotZ (Nat.iter k rotZ l)). now rewrite area2_rot. Qed.
Lemma rotZ_length l : length (rotZ l) = length l.
Proof. destruct l; [reflexivity|]. cbn. rewrite app_length. cbn. lia. Qed.
Lemma iterZ_length k l : length (Nat.iter k rotZ l) = length l.
Proof. induction k as [|k IH]; [reflexivity|]. change (Nat.iter (S k) rotZ l) with (rotZ (Nat.iter k rotZ l)). now rewrite rotZ_length. Qed.
Lemma iterZ_nth k l j : (j < length l)%nat -> nth j (Nat.iter k rotZ l) (0, 0) = nth ((k + j) mod length l) l (0, 0).
Proof.
  revert j. induction k as [|k IH]; intros j Hj; [cbn [Nat.iter nat_rect plus]; now rewrite Nat.mod_small|].
  change (Nat.iter (S k) rotZ l) with (rotZ (Nat.iter k rotZ l)). pose proof (iterZ_length k l) as Lk.
  destruct (Nat.iter k rotZ l) as [|x m] eqn:E; [cbn in Lk; lia|]. cbn [rotZ]. cbn [length] in Lk.
  destruct (Nat.eq_dec j (length m)) as [Q|Q].
  - rewrite app_nth2 by lia. rewrite Q, Nat.sub_diag. cbn [nth]. pose proof (IH 0%nat ltac:(lia)) as I0. cbn [nth] in I0. rewrite I0. f_equal.
    rewrite <- Lk. replace (S k + length m)%nat with (k + 0 + 1 * S (length m))%nat by lia. rewrite Nat.mod_add by lia. reflexivity.
  - rewrite app_nth1 by lia. pose proof (IH (S j) ltac:(lia)) as I1. cbn [nth] in I1. rewrite I1. f_equal. f_equal. lia.
Qed.
(** Number of different points. *)
Lemma once_three L : (2 <= length (closed L))%nat -> once (closed L) -> (3 <= length L)%nat.
Proof.
  intros Len O. destruct L as [|a [|b [|c L]]]; [cbn in Len; lia| | |cbn; lia]; exfalso.
  - destruct (O 0%nat 0%nat 0%R (1 / 2)%R) as (_ & Z); try lra; try (cbn; lia). cbn [closed app nth]. unfold along. f_equal; ring.
  - destruct (O 0%nat 1%nat (1 / 2)%R (1 / 2)%R) as (Z & _); try lra; try (cbn; lia). cbn [closed app nth]. unfold along. f_equal; field.
Qed.
Lemma pt_iter_nth k (l : list pt) j : (j < length l)%nat -> nth j (Nat.iter k rot l) (0, 0)%R = nth ((k + j) mod length l) l (0, 0)%R.
Proof.
  revert j. induction k as [|k IH]; intros j Hj; [cbn [Nat.iter nat_rect plus]; now rewrite Nat.mod_small|].
  change (Nat.iter (S k) rot l) with (rot (Nat.iter k rot l)). pose proof (iter_length k l) as Lk.
  destruct (Nat.iter k rot l) as [|x m] eqn:E; [cbn in Lk; lia|]. cbn [rot]. cbn [length] in Lk.
  destruct (Nat.eq_dec j (length m)) as [Q|Q].
  - rewrite app_nth2 by lia. rewrite Q, Nat.sub_diag. cbn [nth]. pose proof (IH 0%nat ltac:(lia)) as I0. cbn [nth] in I0. rewrite I0. f_equal.
    rewrite <- Lk. replace (S k + length m)%nat with (k + 0 + 1 * S (length m))%nat by lia. rewrite Nat.mod_add by lia. reflexivity.
  - rewrite app_nth1 by lia. pose proof (IH (S j) ltac:(lia)) as I1. cbn [nth] in I1. rewrite I1. f_equal. f_equal. lia.
Qed.
(** No fold at any three vertices that follow each other. *)
Lemma no_fold_at L k : once (closed L) -> (3 <= length L)%nat ->
  no_fold (nth (k mod length L) L (0, 0)%R) (nth ((k + 1) mod length L) L (0, 0)%R) (nth ((k + 2) mod length L) L (0, 0)%R).
Proof.
  intros O Len. pose proof (iter_once k L O) as Ok. pose proof (iter_length k L) as Lk.
  pose proof (pt_iter_nth k L 0 ltac:(lia)) as E0. pose proof (pt_iter_nth k L 1 ltac:(lia)) as E1. pose proof (pt_iter_nth k L 2 ltac:(lia)) as E2.
  destruct (Nat.iter k rot L) as [|a [|v [|b m]]]; cbn in Lk; try lia. cbn [nth] in E0, E1, E2. rewrite Nat.add_0_r in E0. rewrite <- E0, <- E1, <- E2.
  now apply once_no_fold with m.
Qed.
Lemma max_x (l : list pt) : l <> [] -> exists j, (j < length l)%nat /\ forall i, (i < length l)%nat -> (fst (nth i l (0, 0)) <= fst (nth j l (0, 0)))%R.
Proof.
  induction l as [|x l IH]; [congruence|]. intros _. destruct l as [|y l].
  - exists 0%nat. split; [cbn; lia|]. intros [|i] Hi; [lra|cbn in Hi; lia].
  - destruct IH as (j & Hj & M); [discriminate|]. set (l' := y :: l) in *. destruct (Rle_dec (fst (nth j l' (0, 0)%R)) (fst x)) as [C|C].
    + exists 0%nat. split; [cbn; lia|]. intros [|i] Hi; [cbn; lra|]. cbn [nth]. specialize (M i ltac:(cbn [length] in *; lia)). lra.
    + exists (S j). split; [cbn [length] in *; lia|]. intros [|i] Hi; cbn [nth]; [lra|]. apply M. cbn [length] in *. lia.
Qed.
Lemma not_flat L y : once (closed L) -> (3 <= length L)%nat -> (forall i, (i < length L)%nat -> snd (nth i L (0, 0)%R) = y) -> False.
Proof.
  intros O Len F. destruct (max_x L) as (j & Hj & M); [destruct L; [cbn in Len; lia|discriminate]|]. set (n := length L) in *.
  assert (forall k, (k mod n < n)%nat) as Mod by (intros; apply Nat.mod_upper_bound; lia).
  pose proof (no_fold_at L (j + n - 1) O Len) as N. fold n in N. replace (j + n - 1 + 1)%nat with (j + 1 * n)%nat in N by lia. rewrite Nat.mod_add, (Nat.mod_small j) in N by lia.
  pose proof (M _ (Mod (j + n - 1)%nat)) as M1. pose proof (M _ (Mod (j + n - 1 + 2)%nat)) as M2.
  pose proof (F _ (Mod (j + n - 1)%nat)) as F1. pose proof (F _ (Mod (j + n - 1 + 2)%nat)) as F2. pose proof (F _ Hj) as F3.
  destruct N as [N|[N|N]]; [|lra..]. unfold dt. rewrite F1, F2, F3. ring.
Qed.
(** Along a flat top the ring keeps its direction. *)
Lemma flat_run L v b T : forall k, once (closed L) -> (3 <= length L)%nat ->
  (forall i, (i < length (v :: b :: T))%nat -> nth i (v :: b :: T) (0, 0)%R = nth ((k + i) mod length L) L (0, 0)%R) ->
  (forall p, In p (v :: b :: T) -> snd p = snd v) ->
  fst v <> fst b -> ((fst (last (b :: T) (0, 0)) < fst v)%R <-> (fst b < fst v)%R) /\ fst (last (b :: T) (0, 0)%R) <> fst v.
Proof.
  revert v b. induction T as [|c T IH]; intros v b k O Len E F N; [cbn [last]; split; [tauto|congruence]|].
  assert (snd b = snd v /\ snd c = snd v) as (Fb & Fc) by (split; apply F; cbn; auto).
  pose proof (no_fold_at L k O Len) as NF. pose proof (E 0%nat ltac:(cbn; lia)) as E0. pose proof (E 1%nat ltac:(cbn; lia)) as E1. pose proof (E 2%nat ltac:(cbn; lia)) as E2.
  cbn [nth] in E0, E1, E2. rewrite Nat.add_0_r in E0. rewrite <- E0, <- E1, <- E2 in NF.
  destruct NF as [NF|[NF|NF]]; [unfold dt; rewrite Fb, Fc; ring|lra..|]. destruct NF as (_ & _ & NF).
  destruct (IH b c (k + 1)%nat O Len) as (I1 & I2).
  - intros i Hi. specialize (E (S i)). cbn [nth length] in *. rewrite E by lia. f_equal. f_equal. lia.
  - intros p I. rewrite Fb. apply F. now right.
  - lra.
  - change (last (b :: c :: T) (0, 0)%R) with (last (c :: T) (0, 0)%R). destruct NF as [NF|NF].
    + assert (~ (fst (last (c :: T) (0, 0)) < fst b)%R) by (intros Q; apply I1 in Q; lra). split; [split; intros; lra|lra].
    + assert (fst (last (c :: T) (0, 0)) < fst b)%R by (apply I1; lra). split; [split; intros; lra|lra].
Qed.
Lemma dedup_length l : (length (dedup l) <= length l)%nat.
Proof. induction l as [|a l IH]; [cbn; lia|]. destruct l as [|b l]; [cbn; lia|]. rewrite dedup_cons. destruct (same_pt a b); cbn [length] in *; lia. Qed.
Lemma skipn_nth {A} (C : list A) i d : (i < length C)%nat -> skipn i C = nth i C d :: skipn (S i) C.
Proof. revert i. induction C as [|x C IH]; intros i Hi; [cbn in Hi; lia|]. destruct i; [reflexivity|]. cbn [skipn nth]. apply IH. cbn in Hi. lia. Qed.
Lemma skipn_1 {A} d (C : list A) : skipn d (skipn 1 C) = skipn (S d) C.
Proof. destruct C; [now rewrite !skipn_nil|reflexivity]. Qed.
Lemma nth_closedZ l i : (i <= length l)%nat -> l <> [] -> nth i (closedZ l) (0, 0) = nth (i mod length l) l (0, 0).
Proof.
  intros Hi N. destruct l as [|x m]; [congruence|]. cbn [closedZ]. change (x :: m ++ [x]) with ((x :: m) ++ [x]).
  destruct (Nat.eq_dec i (length (x :: m))) as [->|Q].
  - rewrite app_nth2 by lia. rewrite Nat.sub_diag, Nat.mod_same by (cbn; lia). reflexivity.
  - rewrite app_nth1, Nat.mod_small by lia. reflexivity.
Qed.
Lemma closedZ_length l : l <> [] -> length (closedZ l) = S (length l).
Proof. destruct l; [congruence|]. intros _. cbn [closedZ length]. rewrite app_length. cbn. lia. Qed.
Lemma dt_real a b c : dt (real_pt a) (real_pt b) (real_pt c) = IZR (turn2 a b c).
Proof. unfold dt, turn2, real_pt. cbn [fst snd]. rewrite minus_IZR, !mult_IZR, !minus_IZR. reflexivity. Qed.
Lemma nth_real i l : nth i (map real_pt l) (0, 0)%R = real_pt (nth i l (0, 0)).
Proof. exact (map_nth real_pt l (0, 0) i). Qed.
Lemma last_snoc {A} (M : list A) z d : last (M ++ [z]) d = z.
Proof. apply last_last. Qed.
Lemma last_map M d : last (map real_pt M) (real_pt d) = real_pt (last M d).
Proof. induction M as [|x M IH]; [reflexivity|]. destruct M; [reflexivity|]. exact IH. Qed.

Section SimpleCcw.
Context (e : Z) (s : CSeq) (zs : list (Z * Z)).
Context (G : on_grid e zs (scoords s)) (HB : Forall (fun c => bf 1000 (cx c)) (scoords s))
  (HO : top_right zs (scoords s) (length zs - 1)) (SR : simple_ring zs).
Lemma simple_ccw_gen : area2 zs <> 0 /\ is_ccw_seq s = Ok (Some (0 <? area2 zs)).
Proof.
  destruct SR as ((x & m & Ez) & (a0 & m0 & Ed) & O). set (l := x :: m). assert (zs = closedZ l) as Ezs by exact Ez.
  set (n := length l). assert (l <> []) as Nl by discriminate.
  assert (simple_open l) as So.
  { exists (a0 :: m0). rewrite <- Ezs. split; [exact Ed|]. split; [cbn; rewrite app_length; cbn; lia|]. rewrite <- map_closedZ. rewrite Ed in O. exact O. }
  assert (length zs = S n) as Ln by (rewrite Ezs; apply closedZ_length; exact Nl).
  assert (3 <= length (a0 :: m0))%nat as N0.
  { rewrite <- (map_length real_pt). apply once_three; [rewrite <- map_closedZ, map_length; cbn; rewrite app_length; cbn; lia|]. rewrite <- map_closedZ. rewrite Ed in O. exact O. }
  assert (3 <= n)%nat as N3.
  { pose proof (dedup_length zs) as D. rewrite Ed, Ln in D. cbn [length] in D, N0. rewrite app_length in D. cbn [length] in D. lia. }
  assert (forall i, (i <= n)%nat -> nth i zs (0, 0) = nth (i mod n) l (0, 0)) as Q by (intros i Hi; rewrite Ezs; apply nth_closedZ; assumption).
  assert (nth 0 zs (0, 0) = nth n zs (0, 0)) as Cl by (rewrite (Q n), Nat.mod_same, (Q 0%nat), Nat.mod_small by lia; reflexivity).
  assert (forall k, (k mod n < n)%nat) as Mod by (intros; apply Nat.mod_upper_bound; lia).
  assert (forall i, (i <= n)%nat -> bf 1000 (cx (nth i (scoords s) coord_default))) as HB'.
  { intros i Hi. rewrite Forall_forall in HB. apply HB. apply nth_In. rewrite (cap_len e s zs n G Ln). lia. }
  replace (length zs - 1)%nat with n in HO by lia.
  destruct (cap_result_gen e s zs n G HB' HO Ln N3 Cl) as [(Fl & _)|(u & d & Hu & Hd & Top & Low & Run & Down & Res)].
  - exfalso. set (L := map real_pt (a0 :: m0)). assert (once (closed L)) as OL by (unfold L; rewrite <- map_closedZ; rewrite Ed in O; exact O).
    apply (not_flat L (IZR (snd (nth 0 zs (0, 0)))) OL); [unfold L; now rewrite map_length|].
    intros i Hi. unfold L in *. rewrite nth_real. cbn [real_pt snd]. f_equal. rewrite map_length in Hi.
    assert (In (nth i (a0 :: m0) (0, 0)) zs) as I.
    { apply in_dedup. rewrite Ed. change (a0 :: m0 ++ [a0]) with ((a0 :: m0) ++ [a0]). apply in_or_app. left. now apply nth_In. }
    destruct (In_nth _ _ (0, 0) I) as (j & Hj & Ej). rewrite <- Ej. apply Fl. lia.
  - (* the ring started before the top *)
    set (C := closedZ (Nat.iter u rotZ l)).
    assert (length (Nat.iter u rotZ l) = n) as Li by apply iterZ_length.
    assert (Nat.iter u rotZ l <> []) as Ni by (intros E; rewrite E in Li; cbn in Li; lia).
    assert (length C = S n) as LC by (unfold C; rewrite closedZ_length by exact Ni; now rewrite Li).
    assert (forall j, (j <= n)%nat -> nth j C (0, 0) = nth ((u + j) mod n) l (0, 0)) as EC.
    { intros j Hj. unfold C. rewrite nth_closedZ by (rewrite ?Li; assumption). rewrite Li. rewrite iterZ_nth by (apply Mod). fold n. f_equal. apply Nat.add_mod_idemp_r. lia. }
    assert (simple_open (Nat.iter u rotZ l)) as SoC by now apply simple_open_iter.
    destruct SoC as (L & EL & LL & OL). fold C in EL.
    assert (3 <= length L)%nat as L3 by (rewrite <- (map_length real_pt); apply once_three; [rewrite <- map_closedZ, map_length; exact LL|exact OL]).
    assert (area2 zs = area2 (closedZ L)) as EA by (rewrite <- EL, area2_dedup; unfold C; rewrite area2_iter, Ezs; reflexivity).
    rewrite EA.
    (* its parts *)
    set (a := nth 0 C (0, 0)). set (T := firstn d (skipn 1 C)). set (low := nth (S d) C (0, 0)). set (rest := skipn (S (S d)) C).
    assert (C = a :: T ++ low :: rest) as EP.
    { rewrite <- (skipn_O C) at 1. rewrite (skipn_nth C 0 (0, 0)) by lia. fold a. f_equal. rewrite <- (firstn_skipn d (skipn 1 C)) at 1. fold T. f_equal.
      rewrite skipn_1. apply skipn_nth. lia. }
    assert (length T = d) as LT by (unfold T; rewrite firstn_length, skipn_length; lia).
    assert (forall t, (t < d)%nat -> nth t T (0, 0) = nth (S t) C (0, 0)) as NT.
    { intros t Ht. rewrite EP. cbn [nth]. rewrite app_nth1 by lia. reflexivity. }
    assert (a = nth u zs (0, 0)) as Ea by (unfold a; rewrite EC, Nat.add_0_r, Q by lia; reflexivity).
    assert (forall t, (t < d)%nat -> nth t T (0, 0) = nth ((S u + t) mod n) zs (0, 0)) as ETt.
    { intros t Ht. rewrite NT, EC by lia. pose proof (Mod (S u + t)%nat). rewrite Q by lia. rewrite (Nat.mod_small ((S u + t) mod n)) by lia. f_equal. f_equal. lia. }
    assert (nth ((S u) mod n) zs (0, 0) = nth (S u) zs (0, 0)) as Esu.
    { pose proof (Mod (S u)). rewrite !Q by lia. rewrite Nat.mod_mod by lia. reflexivity. }
    assert (low = nth ((S u + d) mod n) zs (0, 0)) as Elow.
    { unfold low. rewrite EC by lia. pose proof (Mod (S u + d)%nat). rewrite Q by lia. rewrite (Nat.mod_small ((S u + d) mod n)) by lia. f_equal. f_equal. lia. }
    destruct T as [|v T0] eqn:ET; [cbn in LT; lia|]. rewrite <- ET in *.
    assert (v = nth (S u) zs (0, 0)) as Ev.
    { pose proof (ETt 0%nat ltac:(lia)) as E. rewrite Nat.add_0_r, Esu in E. rewrite <- E, ET. reflexivity. }
    destruct (exists_last (l := T)) as (A & z & Ez'); [rewrite ET; discriminate|].
    assert (z = nth ((S u + d - 1) mod n) zs (0, 0)) as Ezz.
    { pose proof (ETt (d - 1)%nat ltac:(lia)) as E. replace (S u + (d - 1))%nat with (S u + d - 1)%nat in E by lia. rewrite <- E, Ez'.
      rewrite app_nth2; rewrite Ez', app_length in LT; cbn in LT; [|lia]. replace (d - 1 - length A)%nat with 0%nat by lia. reflexivity. }
    rewrite <- Ea, <- Ev, <- Elow, <- Ezz in Res. rewrite <- Ea, <- Ev in Low. rewrite <- Ev, <- Elow in Down.
    assert (forall p, In p T -> snd p = snd v) as TopT.
    { intros p I. destruct (In_nth _ _ (0, 0) I) as (t & Ht & Et). rewrite <- Et, ETt by lia. rewrite Ev. apply Run. lia. }
    assert (snd z = snd v) as Yz by (apply TopT; rewrite Ez'; apply in_or_app; right; now left).
    assert (forall p, In p (closedZ L) -> snd p <= snd v) as TopL.
    { intros p I. rewrite <- EL in I. apply in_dedup in I. destruct (In_nth _ _ (0, 0) I) as (t & Ht & Et). rewrite <- Et, EC by lia.
      pose proof (Mod (u + t)%nat). rewrite <- (Nat.mod_small ((u + t) mod n) n) by lia. rewrite <- Q by lia. rewrite Ev. apply Top. lia. }
    (* without repeated points *)
    destruct (dedup_head v T0) as (T' & ET'). destruct (dedup_last A z) as (M & EM). destruct (dedup_head low rest) as (R' & ER').
    rewrite <- ET in ET'. rewrite <- Ez' in EM.
    assert (dedup C = a :: (v :: T') ++ low :: R') as EDC.
    { rewrite EP, Ez', <- app_assoc. cbn [app]. assert (z <> low) as Nz by (intros E; rewrite E in Yz; lia).
      pose proof (dedup_app (a :: A) z low rest Nz) as D1. cbn [app] in D1. rewrite D1. change (a :: A ++ [z]) with (a :: (A ++ [z])). rewrite <- Ez', ER'.
      rewrite ET at 1. rewrite dedup_cons. destruct (same_pt_spec a v) as [E|_]; [rewrite E in Low; lia|]. rewrite <- ET, ET'. reflexivity. }
    rewrite EL in EDC. destruct L as [|a' [|v' [|b r]]]; cbn [length] in L3; try lia. cbn [closedZ app] in EDC.
    assert (a' = a) as -> by congruence. assert (v' = v) as -> by congruence.
    assert (b :: r ++ [a] = T' ++ low :: R') as EB by congruence.
    destruct (area_sign a (v :: b :: r) 0 (real_pt a) (real_pt v) (real_pt b) (map real_pt r)) as (Dn & An & Asg).
    { change (a :: (v :: b :: r) ++ [a]) with (closedZ (a :: v :: b :: r)). rewrite map_closedZ. exact OL. }
    { cbn. lia. } { reflexivity. } { cbn. now apply IZR_lt. }
    { intros p I. change (real_pt a :: real_pt v :: real_pt b :: map real_pt r) with (map real_pt (a :: v :: b :: r)) in I. apply in_map_iff in I.
      destruct I as (p0 & <- & I). apply IZR_le, TopL. cbn [closedZ]. change (a :: (v :: b :: r) ++ [a]) with ((a :: v :: b :: r) ++ [a]). apply in_or_app. now left. }
    change (a :: (v :: b :: r) ++ [a]) with (closedZ (a :: v :: b :: r)) in An, Asg.
    rewrite dt_real in Dn, Asg. split; [exact An|]. rewrite Res. do 2 f_equal.
    assert (turn2 a v b <> 0) as Dn' by (intros E; apply Dn; now rewrite E).
    assert (0 < area2 (closedZ (a :: v :: b :: r)) <-> 0 < turn2 a v b) as Asg'.
    { rewrite Asg. split; [apply lt_IZR|apply IZR_lt]. }
    enough ((if fst v =? fst z then 0 <? turn2 a v low else fst z <? fst v) = (0 <? turn2 a v b)) as K.
    { rewrite K. destruct (Z.ltb_spec 0 (turn2 a v b)), (Z.ltb_spec 0 (area2 (closedZ (a :: v :: b :: r)))); try reflexivity; lia. }
    destruct T' as [|b' T''].
    + cbn [app] in EB. assert (b = low) by congruence. subst b.
      rewrite ET' in EM. destruct M as [|? M]; [|destruct M; discriminate]. cbn [app] in EM. assert (z = v) as Zv by congruence. rewrite Zv. now rewrite Z.eqb_refl.
    + cbn [app] in EB. assert (b' = b) by congruence. subst b'. assert (r ++ [a] = T'' ++ low :: R') as EB' by congruence.
      assert (snd b = snd v) as Yb. { apply TopT. apply in_dedup. rewrite ET'. right. now left. }
      assert (turn2 a v b = (snd v - snd a) * (fst v - fst b)) as Et by (unfold turn2; rewrite Yb; ring).
      assert (last (b :: T'') (0, 0) = z) as Elast.
      { change (last (b :: T'') (0, 0)) with (last (v :: b :: T'') (0, 0)). rewrite <- ET', EM. apply last_last. }
      destruct (flat_run (map real_pt (a :: v :: b :: r)) (real_pt v) (real_pt b) (map real_pt T'') 1 OL) as (F1 & F2).
      * rewrite map_length. cbn. lia.
      * intros i Hi. change (real_pt v :: real_pt b :: map real_pt T'') with (map real_pt (v :: b :: T'')) in *. rewrite map_length in Hi.
        rewrite map_length. rewrite !nth_real. f_equal.
        assert (length (T'') <= length r)%nat as Le. { assert (length (r ++ [a]) = length (T'' ++ low :: R')) as Q2 by congruence. rewrite !app_length in Q2. cbn [length] in Q2. lia. }
        rewrite Nat.mod_small by (cbn [length] in *; lia). change (nth (1 + i) (a :: v :: b :: r) (0, 0)) with (nth i (v :: b :: r) (0, 0)).
        destruct i as [|[|i]]; [reflexivity..|]. cbn [nth].
        cbn [length] in Hi. rewrite <- (app_nth1 r [a]) by lia. rewrite EB'. rewrite app_nth1 by lia. reflexivity.
      * intros p I. change (real_pt v :: real_pt b :: map real_pt T'') with (map real_pt (v :: b :: T'')) in I. apply in_map_iff in I. destruct I as (p0 & <- & I).
        cbn [real_pt snd]. f_equal. apply TopT. apply in_dedup. now rewrite ET'.
      * cbn [real_pt fst]. intros E. apply eq_IZR in E. apply Dn'. rewrite Et, E. ring.
      * change (real_pt b :: map real_pt T'') with (map real_pt (b :: T'')) in F1, F2. change (0, 0)%R with (real_pt (0, 0)) in F1, F2. rewrite last_map, Elast in F1, F2.
        cbn [real_pt fst] in F1, F2. assert (fst z <> fst v) as Nzv by (intros E; apply F2; now rewrite E).
        destruct (Z.eqb_spec (fst v) (fst z)); [congruence|].
        assert (fst z < fst v <-> fst b < fst v) as F1'. { split; intros H; apply lt_IZR, F1, IZR_lt, H. }
        rewrite Et. destruct (Z.ltb_spec (fst z) (fst v)), (Z.ltb_spec 0 ((snd v - snd a) * (fst v - fst b))); try reflexivity; nia.
Qed.
End SimpleCcw.
Lemma simple_ccw e s zs : -440 <= e <= 420 -> on_grid e zs (scoords s) -> within (2 ^ 49) zs -> simple_ring zs ->
  area2 zs <> 0 /\ is_ccw_seq s = Ok (Some (0 <? area2 zs)).
Proof.
  intros He G W SR. pose proof SR as ((x & m & Ez) & _).
  assert (length zs = S (length m + 1)) as Ln by (rewrite Ez; cbn; rewrite app_length; reflexivity).
  apply (simple_ccw_gen e); try assumption.
  - apply Forall_forall. intros c I. destruct (In_nth _ _ coord_default I) as (i & Hi & <-).
    pose proof (cap_len e s zs (length m + 1) G Ln) as L. apply (bf_nth e zs (scoords s) (length m + 1)); try assumption. lia.
  - apply (top_right_grid e); try assumption; lia.
Qed.
