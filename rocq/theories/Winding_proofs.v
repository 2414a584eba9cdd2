(** Winding numbers of rings: constant along paths that avoid the ring, and
    two-valued for simple rings. *)
From Coq Require Import ZArith Bool List Reals Lia Lra Permutation.
From Verif Require Import Simple_spec Centroid_spec Simple_proofs SimpleCap_proofs.
Import ListNotations.
Open Scope R_scope.

(** Nothing changes along a segment that misses the ring. *)
Lemma wind_path x m q r : (forall e, In e (pairs (x :: m ++ [x])) -> apart q r (fst e) (snd e)) ->
  wind (pairs (x :: m ++ [x])) q = wind (pairs (x :: m ++ [x])) r.
Proof. intros H. pose proof (wind_flux q r x m x H). lia. Qed.
(** Between the vertices' heights, a point just left of a crossing. *)
Lemma wind_level l x y : (3 <= length l)%nat -> once (closed l) -> Forall (off y) (ring l) ->
  (forall e, In e (ring l) -> sg e y <> 0%Z -> xe e y <> x) ->
  let L := wleft (ring l) (1 / 2) in
  wind (ring l) (x, y) = 0%Z \/ wind (ring l) (x, y) = L \/ wind (ring l) (x, y) = (L - 1)%Z.
Proof.
  intros Len O F Nx L.
  set (p e := (if Rlt_dec x (xe e y) then true else false) && negb (sg e y =? 0)%Z).
  destruct (sort_by (fun e => xe e y) (filter p (ring l))) as (S & P & So).
  destruct S as [|s0 S0].
  - left. apply wind_zero; [exact F|]. intros e I. apply Permutation_sym, Permutation_nil in P.
    destruct (p e) eqn:E.
    + assert (In e []) as [] by (rewrite <- P; apply filter_In; split; assumption).
    + unfold p in E. destruct (Rlt_dec x (xe e y)); [|left; lra]. right. cbn in E. destruct (Z.eqb_spec (sg e y) 0); [assumption|discriminate].
  - right. destruct (exists_last (l := s0 :: S0)) as (S1 & e & ES); [discriminate|].
    rewrite ES in P, So. clear s0 S0 ES.
    assert (In e (filter p (ring l))) as I by (apply (Permutation_in _ (Permutation_sym P)), in_or_app; right; now left).
    apply filter_In in I. destruct I as (I & Pe). unfold p in Pe. destruct (Rlt_dec x (xe e y)) as [Lx|]; [|discriminate].
    cbn in Pe. destruct (Z.eqb_spec (sg e y) 0) as [|Ne]; [discriminate|].
    destruct (ring_iter_in l e I) as (k & r & Ek & Pr).
    rewrite (wind_perm _ _ (x, y) Pr). cbn [wind].
    assert (Forall (off y) (e :: r)) as F' by (apply (Permutation_Forall Pr F)). inversion F' as [|? ? Fe Fr]; subst.
    rewrite cr_at by apply Fe. destruct (Rlt_dec x (xe e y)) as [_|]; [|contradiction].
    destruct (crossing e y Ne) as (t & Ht & Et & Hs).
    pose proof (wleft_all l Len O e r t Pr Ht) as W. cbn [wleft] in W. rewrite Et, Hs in W. fold L in W.
    assert (wind r (x, y) = wind r (xe e y, y)) as ->.
    { assert (forall e', In e' r -> sg e' y <> 0%Z -> x < xe e' y <-> xe e y < xe e' y) as K.
      { intros e' I' N'. assert (xe e y <> xe e' y) as D by (apply (xe_distinct l e e' r y); assumption).
        split; intros H; [|lra]. assert (In e' (S1 ++ [e])) as IS.
        { apply (Permutation_in _ P). apply filter_In. split; [apply (Permutation_in _ (Permutation_sym Pr)); now right|].
          unfold p. destruct (Rlt_dec x (xe e' y)); [|contradiction]. cbn. destruct (Z.eqb_spec (sg e' y) 0); [contradiction|reflexivity]. }
        apply in_app_or in IS. destruct IS as [IS|[<-|[]]]; [|lra]. pose proof (So S1 e [] eq_refl e' IS). lra. }
      clear - K Fr. induction r as [|e' r IH]; [reflexivity|]. inversion Fr as [|? ? Fe Fr']; subst. cbn [wind].
      rewrite IH by (assumption || (intros; apply K; [now right|assumption])). rewrite !cr_at by apply Fe.
      destruct (Z.eq_dec (sg e' y) 0) as [->|N].
      - now destruct (Rlt_dec x (xe e' y)), (Rlt_dec (xe e y) (xe e' y)).
      - pose proof (K e' (or_introl eq_refl) N). destruct (Rlt_dec x (xe e' y)), (Rlt_dec (xe e y) (xe e' y)); tauto || reflexivity. }
    destruct (sg_values e y) as [Q|[Q|Q]]; rewrite Q in *; cbn in W; [left|congruence|right]; lia.
Qed.
(** A small step up misses what the point misses. *)
Lemma step_up q c d : (forall t, 0 <= t <= 1 -> q <> along c d t) ->
  exists h, 0 < h /\ forall k, 0 <= k < h -> apart q (fst q, snd q + k) c d.
Proof.
  intros H. destruct (Req_dec (fst c) (fst d)) as [V|V].
  - destruct (Req_dec (fst q) (fst c)) as [E|E].
    + assert (forall lo hi, lo <= hi -> (forall y, lo <= y <= hi -> exists t, 0 <= t <= 1 /\ snd (along c d t) = y) ->
        (forall t, 0 <= t <= 1 -> lo <= snd (along c d t) <= hi) -> exists h, 0 < h /\ forall k, 0 <= k < h -> apart q (fst q, snd q + k) c d) as G.
      { intros lo hi Lh Hit Rng. assert (snd q < lo \/ hi < snd q) as C.
        { destruct (Rlt_dec (snd q) lo); [now left|]. destruct (Rlt_dec hi (snd q)); [now right|]. exfalso.
          destruct (Hit (snd q)) as (t & Ht & Et); [lra|]. apply (H t Ht). apply injective_projections; [|now symmetry].
          unfold along. cbn [fst]. rewrite <- V, E. ring. }
        exists (if Rlt_dec (snd q) lo then lo - snd q else 1). split; [destruct (Rlt_dec (snd q) lo); lra|].
        intros k Hk s t Hs Ht Eq. pose proof (Rng t Ht) as B. rewrite <- Eq in B. unfold along in B. cbn [fst snd] in B.
        replace (snd q + s * (snd q + k - snd q)) with (snd q + s * k) in B by ring.
        destruct (Rlt_dec (snd q) lo); nra. }
      destruct (Rtotal_order (snd c) (snd d)) as [L|[L|L]].
      * apply (G (snd c) (snd d)); [lra| |].
        -- intros y Hy. exists ((y - snd c) / (snd d - snd c)). split; [apply frac01; lra|]. unfold along. cbn [snd]. field. lra.
        -- intros t Ht. unfold along. cbn [snd]. nra.
      * apply (G (snd c) (snd c)); [lra| |].
        -- intros y Hy. exists 0. split; [lra|]. unfold along. cbn [snd]. lra.
        -- intros t Ht. unfold along. cbn [snd]. rewrite <- L. split; lra.
      * apply (G (snd d) (snd c)); [lra| |].
        -- intros y Hy. exists (1 - (y - snd d) / (snd c - snd d)). split; [pose proof (frac01 (snd d) (snd c) y L Hy); lra|]. unfold along. cbn [snd]. field. lra.
        -- intros t Ht. unfold along. cbn [snd]. nra.
    + exists 1. split; [lra|]. intros k Hk s t Hs Ht Eq. apply (f_equal fst) in Eq. unfold along in Eq. cbn [fst] in Eq. rewrite <- V in Eq. lra.
  - set (t0 := (fst q - fst c) / (fst d - fst c)). set (y0 := snd c + t0 * (snd d - snd c)).
    assert (forall t, fst q = fst c + t * (fst d - fst c) -> t = t0) as U.
    { intros t Et. unfold t0. rewrite Et. field. lra. }
    exists (if Rlt_dec (snd q) y0 then y0 - snd q else 1). split; [destruct (Rlt_dec (snd q) y0); lra|].
    intros k Hk s t Hs Ht Eq. pose proof (f_equal fst Eq) as Ex. pose proof (f_equal snd Eq) as Ey. unfold along in Ex, Ey. cbn [fst snd] in Ex, Ey.
    assert (t = t0) by (apply U; lra). subst t. fold y0 in Ey.
    replace (snd q + s * (snd q + k - snd q)) with (snd q + s * k) in Ey by ring.
    destruct (Rlt_dec (snd q) y0) as [A|A]; [nra|].
    assert (snd q = y0) by nra. apply (H t0 Ht). apply injective_projections; unfold along; cbn [fst snd]; [lra|]. fold y0. assumption.
Qed.
Lemma step_up_all q es : (forall e, In e es -> forall t, 0 <= t <= 1 -> q <> along (fst e) (snd e) t) ->
  exists h, 0 < h /\ forall k, 0 <= k < h -> forall e, In e es -> apart q (fst q, snd q + k) (fst e) (snd e).
Proof.
  induction es as [|e es IH]; intros H; [exists 1; split; [lra|intros ? ? ? []]|].
  destruct IH as (h & Hh & K); [intros; apply H; [now right|assumption]|].
  destruct (step_up q (fst e) (snd e)) as (h' & Hh' & K'); [intros; apply H; [now left|assumption]|].
  exists (Rmin h h'). split; [now apply Rmin_glb_lt|]. intros k Hk e' [<-|I].
  - apply K'. pose proof (Rmin_r h h'). lra.
  - apply K; [|exact I]. pose proof (Rmin_l h h'). lra.
Qed.
Lemma fresh_height y h (es : list edge) : 0 < h -> exists k, 0 < k < h /\ Forall (off (y + k)) es.
Proof.
  intros Hh. revert h Hh. induction es as [|e es IH]; intros h Hh; [exists (h / 2); split; [lra|constructor]|].
  set (g z := if Rlt_dec y z then z - y else h). assert (forall z, 0 < g z) as Gp by (intros z; unfold g; destruct (Rlt_dec y z); lra).
  destruct (IH (Rmin h (Rmin (g (snd (fst e))) (g (snd (snd e)))))) as (k & Hk & F).
  - repeat apply Rmin_glb_lt; auto.
  - pose proof (Rmin_l h (Rmin (g (snd (fst e))) (g (snd (snd e))))). pose proof (Rmin_r h (Rmin (g (snd (fst e))) (g (snd (snd e))))).
    pose proof (Rmin_l (g (snd (fst e))) (g (snd (snd e)))). pose proof (Rmin_r (g (snd (fst e))) (g (snd (snd e)))).
    exists k. split; [lra|]. constructor; [|exact F].
    assert (forall z, k < g z -> z <> y + k) as N by (intros z Hz E; unfold g in Hz; destruct (Rlt_dec y z); lra).
    split; apply N; lra.
Qed.
Lemma wind_simple l q : (3 <= length l)%nat -> once (closed l) -> (forall e, In e (ring l) -> forall t, 0 <= t <= 1 -> q <> along (fst e) (snd e) t) ->
  let L := wleft (ring l) (1 / 2) in
  wind (ring l) q = 0%Z \/ wind (ring l) q = L \/ wind (ring l) q = (L - 1)%Z.
Proof.
  intros Len O Off L. destruct (step_up_all q (ring l) Off) as (h & Hh & K).
  destruct (fresh_height (snd q) h (ring l) Hh) as (k & Hk & F).
  assert (wind (ring l) q = wind (ring l) (fst q, snd q + k)) as ->.
  { destruct l as [|x m]; [cbn in Len; lia|]. apply wind_path. intros e I. apply K; [lra|exact I]. }
  apply wind_level; try assumption. intros e I N X. destruct (crossing e _ N) as (t & Ht & Et & _).
  apply (K k ltac:(lra) e I 1 t); [lra|lra|]. rewrite along_1, Et, X. reflexivity.
Qed.

(** A highest vertex reached from below. *)
Lemma max_y (l : list pt) : l <> [] -> exists j, (j < length l)%nat /\ forall i, (i < length l)%nat -> snd (nth i l (0, 0)) <= snd (nth j l (0, 0)).
Proof.
  induction l as [|x l IH]; [congruence|]. intros _. destruct l as [|y l].
  - exists 0%nat. split; [cbn; lia|]. intros [|i] Hi; [lra|cbn in Hi; lia].
  - destruct IH as (j & Hj & M); [discriminate|]. set (l' := y :: l) in *. destruct (Rle_dec (snd (nth j l' (0, 0))) (snd x)) as [C|C].
    + exists 0%nat. split; [cbn; lia|]. intros [|i] Hi; [cbn; lra|]. cbn [nth]. specialize (M i ltac:(cbn [length] in *; lia)). lra.
    + exists (S j). split; [cbn [length] in *; lia|]. intros [|i] Hi; cbn [nth]; [lra|]. apply M. cbn [length] in *. lia.
Qed.
Lemma top_exists l : (3 <= length l)%nat -> once (closed l) ->
  exists k a v b r, Nat.iter k rot l = a :: v :: b :: r /\ snd a < snd v /\ forall p, In p (a :: v :: b :: r) -> snd p <= snd v.
Proof.
  intros Len O. destruct (max_y l) as (j & Hj & M); [destruct l; [cbn in Len; lia|discriminate]|]. set (n := length l) in *.
  set (h i := snd (nth (i mod n) l (0, 0))).
  assert (forall k, (k mod n < n)%nat) as Mod by (intros; apply Nat.mod_upper_bound; lia).
  assert (forall i, h i <= h j) as Top by (intros i; unfold h; rewrite (Nat.mod_small j) by lia; apply M, Mod).
  assert (exists d, h (j + n * n - d)%nat = h j /\ h (j + n * n - S d)%nat < h j /\ (S d <= n * n)%nat) as (d & D1 & D2 & D3).
  { destruct (Classical_Prop.classic (exists d, h (j + n * n - d)%nat = h j /\ h (j + n * n - S d)%nat < h j /\ (S d <= n * n)%nat)) as [|No]; [assumption|exfalso].
    assert (forall d, (d <= n * n)%nat -> h (j + n * n - d)%nat = h j) as All.
    { induction d as [|d IH]; intros Hd.
      - rewrite Nat.sub_0_r. unfold h. rewrite Nat.mod_add by lia. reflexivity.
      - destruct (Rtotal_order (h (j + n * n - S d)%nat) (h j)) as [Q|[Q|Q]]; [|assumption|pose proof (Top (j + n * n - S d)%nat); lra].
        exfalso. apply No. exists d. repeat split; [apply IH; lia|assumption|lia]. }
    apply (not_flat l (h j) O Len). intros i Hi. fold n in Hi.
    specialize (All (j + (n - i))%nat ltac:(nia)). replace (j + n * n - (j + (n - i)))%nat with (i + (n - 1) * n)%nat in All by nia.
    unfold h in All at 1. rewrite Nat.mod_add, Nat.mod_small in All by lia. exact All. }
  exists (j + n * n - S d)%nat. set (k := (j + n * n - S d)%nat) in *.
  pose proof (iter_length k l) as Lk. pose proof (pt_iter_nth k l 0 ltac:(lia)) as E0. pose proof (pt_iter_nth k l 1 ltac:(lia)) as E1.
  assert (forall i, (i < n)%nat -> snd (nth i (Nat.iter k rot l) (0, 0)) <= h j) as TopI by (intros i Hi; rewrite pt_iter_nth by exact Hi; apply Top).
  destruct (Nat.iter k rot l) as [|a [|v [|b r]]]; cbn [length] in Lk; try lia. exists a, v, b, r. split; [reflexivity|].
  cbn [nth] in E0, E1. rewrite Nat.add_0_r in E0. fold n in E0, E1.
  assert (snd a = h k) as -> by (rewrite E0; reflexivity).
  assert (snd v = h j) as ->. { rewrite E1. change (h (k + 1)%nat = h j). rewrite <- D1. f_equal. unfold k. lia. }
  split; [exact D2|]. intros p I. destruct (In_nth _ _ (0, 0) I) as (i & Hi & <-). apply TopI. cbn [length] in Hi. lia.
Qed.
Lemma wleft_area x m : once (map real_pt (x :: m ++ [x])) -> (3 <= length (x :: m))%nat ->
  area2 (x :: m ++ [x]) <> 0%Z /\ wleft (ring (map real_pt (x :: m))) (1 / 2) = if (0 <? area2 (x :: m ++ [x]))%Z then 1%Z else 0%Z.
Proof.
  intros O Len. pose proof O as O'. rewrite <- closed_map in O'. set (l := map real_pt (x :: m)) in *.
  assert (3 <= length l)%nat as Ll by (unfold l; rewrite map_length; exact Len).
  destruct (top_exists l Ll O') as (k & a & v & b & r & Ek & Hav & Top).
  destruct (area_sign x m k a v b r O Len Ek Hav Top) as (Nz & Na & Sg). split; [exact Na|].
  pose proof (iter_once k l O') as Ok. rewrite Ek in Ok.
  destruct (wleft_top a v b r (1 / 2) Ok ltac:(lra) Hav Top) as (_ & W).
  rewrite (wleft_iter k l (1 / 2) (1 / 2) Ll O') by lra. rewrite Ek, W.
  destruct (Rlt_dec 0 (dt a v b)) as [P|P], (Z.ltb_spec 0 (area2 (x :: m ++ [x]))) as [Q|Q]; try reflexivity; exfalso.
  - apply Sg in P. lia.
  - apply P, Sg, Q.
Qed.
(** Repeated points and scaling change nothing. *)
Lemma cr_same a q : cr a a q = 0%Z.
Proof. unfold cr. repeat match goal with |- context [Rlt_dec ?x ?y] => destruct (Rlt_dec x y); try (exfalso; lra) | |- context [Rle_dec ?x ?y] => destruct (Rle_dec x y); try (exfalso; lra) end; reflexivity. Qed.
Lemma wind_dedup zs q : wind (pairs (map real_pt (dedup zs))) q = wind (pairs (map real_pt zs)) q.
Proof.
  induction zs as [|a l IH]; [reflexivity|]. destruct l as [|b l]; [reflexivity|]. rewrite dedup_cons.
  change (pairs (map real_pt (a :: b :: l))) with ((real_pt a, real_pt b) :: pairs (map real_pt (b :: l))). cbn [wind fst snd]. rewrite <- IH.
  destruct (same_pt_spec a b) as [<-|_].
  - rewrite cr_same. lia.
  - destruct (dedup_head b l) as (m & ->). reflexivity.
Qed.
Definition scale (k : R) (p : pt) : pt := (k * fst p, k * snd p).
Lemma cr_scale k c d q : 0 < k -> cr (scale k c) (scale k d) (scale k q) = cr c d q.
Proof.
  intros H. unfold cr. assert (dt (scale k c) (scale k d) (scale k q) = k * k * dt c d q) as -> by (unfold dt, scale; cbn [fst snd]; ring).
  destruct (sign_scale (k * k) (dt c d q) ltac:(nra)) as (S1 & S2). cbn [scale snd].
  assert (forall x y, k * x <= k * y <-> x <= y) as LE by (intros; split; intros; nra). assert (forall x y, k * x < k * y <-> x < y) as LT by (intros; split; intros; nra).
  pose proof (LE (snd c) (snd q)). pose proof (LE (snd d) (snd q)). pose proof (LT (snd q) (snd d)).
  repeat match goal with |- context [Rlt_dec ?x ?y] => destruct (Rlt_dec x y) | |- context [Rle_dec ?x ?y] => destruct (Rle_dec x y) end; reflexivity || (exfalso; tauto).
Qed.
Lemma wind_scale k l q : 0 < k -> wind (pairs (map (scale k) l)) (scale k q) = wind (pairs l) q.
Proof.
  intros H. induction l as [|a l IH]; [reflexivity|]. destruct l as [|b l]; [reflexivity|].
  change (pairs (map (scale k) (a :: b :: l))) with ((scale k a, scale k b) :: pairs (map (scale k) (b :: l))). change (pairs (a :: b :: l)) with ((a, b) :: pairs (b :: l)).
  cbn [wind fst snd]. rewrite IH, cr_scale by exact H. reflexivity.
Qed.
(** Crossing one step of the ring. *)
Lemma wind_flux_any q r l : l <> [] -> (forall e, In e (pairs l) -> apart q r (fst e) (snd e)) ->
  (wind (pairs l) r - wind (pairs l) q = st q r (hd (0, 0)%R l) - st q r (last l (0, 0)%R))%Z.
Proof.
  intros N H. destruct l as [|a l]; [congruence|]. destruct l as [|b l] using rev_ind; [cbn; lia|].
  change (a :: l ++ [b]) with ((a :: l) ++ [b]) at 4. rewrite last_last. exact (wind_flux q r a l b H).
Qed.
Lemma pairs_split l1 c d l2 : pairs (l1 ++ c :: d :: l2) = pairs (l1 ++ [c]) ++ (c, d) :: pairs (d :: l2).
Proof. induction l1 as [|a l1 IH]; [reflexivity|]. destruct l1 as [|b l1]; [reflexivity|]. cbn [app] in *. change (pairs (a :: b :: l1 ++ c :: d :: l2)) with ((a, b) :: pairs (b :: l1 ++ c :: d :: l2)). rewrite IH. reflexivity. Qed.
Lemma cross_left p q c d s t : 0 < s < 1 -> 0 < t < 1 -> along p q s = along c d t -> dt c d p < 0 ->
  0 < dt c d q /\ (st p q d - st p q c + cr c d q - cr c d p = 1)%Z.
Proof.
  intros Hs Ht E D1. pose proof (f_equal fst E) as Ex. pose proof (f_equal snd E) as Ey. unfold along in Ex, Ey. cbn [fst snd] in Ex, Ey.
  assert ((1 - s) * dt c d p + s * dt c d q = 0) as Z1.
  { replace ((1 - s) * dt c d p + s * dt c d q) with (dt c d (along p q s)) by (unfold dt, along; cbn [fst snd]; ring). rewrite E. unfold dt, along. cbn [fst snd]. ring. }
  assert ((1 - t) * dt p q c + t * dt p q d = 0) as Z2.
  { replace ((1 - t) * dt p q c + t * dt p q d) with (dt p q (along c d t)) by (unfold dt, along; cbn [fst snd]; ring). rewrite <- E. unfold dt, along. cbn [fst snd]. ring. }
  assert (dt p q d - dt p q c = dt c d p - dt c d q) as Z3 by (unfold dt; ring).
  assert (0 < dt c d q) as D2 by nra. split; [exact D2|].
  assert (dt p q d < 0 < dt p q c) as (E2 & E1).
  { assert (dt p q d < dt p q c) by lra. split; nra. }
  assert (snd c = snd d -> snd p = snd q -> False) as Nf.
  { intros Q1 Q2. rewrite <- Q1, <- Q2 in Ey. assert (snd p = snd c) by lra. unfold dt in D1. rewrite <- Q1 in D1. replace (snd p) with (snd c) in D1. lra. }
  destruct (between (snd p) (snd q) s Hs) as (P1 & P2 & P3), (between (snd c) (snd d) t Ht) as (Q1 & Q2 & Q3).
  rewrite <- Ey in Q1, Q2, Q3. set (y := snd p + s * (snd q - snd p)) in *. clearbody y. clear E Ex Ey Z1 Z2 Z3 Hs Ht.
  unfold st, st_up, cr. rewrite !(dt_flip p q). revert D1 D2 E1 E2. generalize (dt c d p) (dt c d q) (dt p q c) (dt p q d). intros. 
  destruct (Rtotal_order (snd p) (snd q)) as [A|[A|A]]; try specialize (P1 A); try specialize (P2 A); try specialize (P3 A);
  destruct (Rtotal_order (snd c) (snd d)) as [B|[B|B]]; try specialize (Q1 B); try specialize (Q2 B); try specialize (Q3 B); try (exfalso; exact (Nf B A));
  repeat match goal with |- context [Rlt_dec ?x ?y] => destruct (Rlt_dec x y); try (exfalso; lra) | |- context [Rle_dec ?x ?y] => destruct (Rle_dec x y); try (exfalso; lra) end; try lia.
Qed.
Lemma wind_cross x m l1 c d l2 p q s t : x :: m ++ [x] = l1 ++ c :: d :: l2 -> 0 < s < 1 -> 0 < t < 1 -> along p q s = along c d t -> dt c d p < 0 ->
  (forall e, In e (pairs (l1 ++ [c])) -> apart p q (fst e) (snd e)) -> (forall e, In e (pairs (d :: l2)) -> apart p q (fst e) (snd e)) ->
  0 < dt c d q /\ (wind (pairs (x :: m ++ [x])) q = wind (pairs (x :: m ++ [x])) p + 1)%Z.
Proof.
  intros E Hs Ht Ex D1 A1 A2. destruct (cross_left p q c d s t Hs Ht Ex D1) as (D2 & K). split; [exact D2|].
  rewrite E, pairs_split, !wind_app. cbn [wind fst snd].
  pose proof (wind_flux_any p q (l1 ++ [c]) ltac:(now destruct l1) A1) as F1. pose proof (wind_flux_any p q (d :: l2) ltac:(discriminate) A2) as F2.
  rewrite last_last in F1. cbn [hd] in F2.
  assert (hd (0, 0) (l1 ++ [c]) = x) as H1 by (destruct l1; cbn in *; congruence).
  assert (last (d :: l2) (0, 0) = x) as H2.
  { assert (last (x :: m ++ [x]) (0, 0) = x) as L by (change (x :: m ++ [x]) with ((x :: m) ++ [x]); apply last_last). rewrite E in L. rewrite <- L.
    clear. induction l1 as [|a l1 IH]; [reflexivity|]. rewrite IH. cbn [app]. destruct (l1 ++ c :: d :: l2) eqn:Q; [destruct l1; discriminate|reflexivity]. }
  rewrite H1 in F1. rewrite H2 in F2. lia.
Qed.
