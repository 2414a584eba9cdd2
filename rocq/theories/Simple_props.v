(** C46, C50 and C69 for simple rings. *)
From Coq Require Import ZArith Bool List Reals Lia Lra.
From Verif Require Import Base F64 F64Facts F64Err DD_spec Coordinate_model CoordSeq_model Orientation_model Orientation_spec
  Orientation_proofs Orientation_props Measure_model Measure_spec Measure_proofs Measure_props Geom_model Geom_proofs Polygon_proofs Line_props Polygon_props Multi_props Centroid_model Centroid_spec Centroid_proofs Centroid_props
  PointLocation_model PointLocation_spec PointLocation_proofs PointLocation_props Simple_spec Simple_proofs Cap_proofs SimpleCap_proofs.
Import ListNotations.
Open Scope Z_scope.

(** ** C46: the direction of rings *)
(** The ring direction test on any closed ring of grid points: false when all
    points have one height; otherwise there is a step up to a highest vertex
    [v], followed by highest vertices up to [w] and a step down, and the
    answer is the turn there when [v] and [w] are the same place, and whether
    the top runs to the left when not. *)
Theorem C46_top : forall e zs cs n, -440 <= e <= 420 -> on_grid e zs cs -> within (2 ^ 49) zs ->
  length zs = S n -> (3 <= n)%nat ->
  let z i := nth i zs (0, 0) in
  z 0%nat = z n ->
  ((forall i, (i <= n)%nat -> snd (z i) = snd (z 0%nat)) /\ is_ccw_vec cs = Ok (Some false)) \/
  exists u d, (u < n)%nat /\ (1 <= d < n)%nat /\
    let v := z (S u) in let w := z ((S u + d - 1) mod n)%nat in let low := z ((S u + d) mod n)%nat in
    (forall i, (i <= n)%nat -> snd (z i) <= snd v) /\ snd (z u) < snd v /\
    (forall t, (t < d)%nat -> snd (z ((S u + t) mod n)%nat) = snd v) /\ snd low < snd v /\
    is_ccw_vec cs = Ok (Some (if fst v =? fst w
                              then 0 <? (fst v - fst (z u)) * (snd low - snd (z u)) - (snd v - snd (z u)) * (fst low - fst (z u))
                              else fst w <? fst v)).
Proof. intros e zs cs n He G W L N z C. exact (cap_result e (seq_of_dim_meas cs 2 0) zs n He G W L N C). Qed.
(** On simple rings it tells the sign of the area, which is not zero. *)
Theorem C46_simple_ring : forall e zs cs, -440 <= e <= 420 -> on_grid e zs cs -> within (2 ^ 49) zs -> simple_ring zs ->
  area2 zs <> 0 /\ is_ccw_vec cs = Ok (Some (0 <? area2 zs)).
Proof. intros e zs cs He G W S. exact (simple_ccw e (seq_of_dim_meas cs 2 0) zs He G W S). Qed.
(** So the starting point does not matter, *)
Lemma on_grid_app e a b x y : on_grid e a x -> on_grid e b y -> on_grid e (a ++ b) (x ++ y).
Proof. apply Forall2_app. Qed.
Lemma within_app k a b : within k (a ++ b) <-> within k a /\ within k b.
Proof. apply Forall_app. Qed.
Lemma simple_ring_open l : simple_ring (closedZ l) <-> l <> [] /\ simple_open l.
Proof.
  split.
  - intros ((x & m & E) & (a & k & D) & O). split; [intros ->; discriminate|]. exists (a :: k). rewrite <- map_closedZ. rewrite D in *.
    split; [reflexivity|]. split; [cbn; rewrite app_length; cbn; lia|exact O].
  - intros (N & (L & E & Len & O)). destruct l as [|x m]; [congruence|]. destruct L as [|a k]; [cbn in Len; lia|].
    split; [now exists x, m|]. split; [exists a, k; exact E|]. rewrite E, map_closedZ. exact O.
Qed.
Lemma iter_app l m : Nat.iter (length l) rotZ (l ++ m) = m ++ l.
Proof.
  assert (forall l m r, Nat.iter (length l) rotZ (l ++ m ++ r) = m ++ r ++ l) as K.
  { clear. assert (forall k (l : list (Z * Z)), Nat.iter (S k) rotZ l = Nat.iter k rotZ (rotZ l)) as I.
    { induction k as [|k IH]; intros l; [reflexivity|]. change (Nat.iter (S (S k)) rotZ l) with (rotZ (Nat.iter (S k) rotZ l)). rewrite IH. reflexivity. }
    induction l as [|x l IH]; intros m r; [cbn; now rewrite app_nil_r|]. cbn [length]. rewrite I. cbn [app rotZ].
    rewrite <- !app_assoc. rewrite (IH m (r ++ [x])). now rewrite <- !app_assoc. }
  specialize (K l m []). rewrite !app_nil_r in K. exact K.
Qed.
Theorem C46_start : forall e za zl zb zm a l b m, -440 <= e <= 420 ->
  on_grid e (za :: zl) (a :: l) -> on_grid e (zb :: zm) (b :: m) -> within (2 ^ 49) ((za :: zl) ++ zb :: zm) ->
  simple_ring ((za :: zl) ++ (zb :: zm) ++ [za]) ->
  is_ccw_vec ((b :: m) ++ (a :: l) ++ [b]) = is_ccw_vec ((a :: l) ++ (b :: m) ++ [a]).
Proof.
  intros e za zl zb zm a l b m He G1 G2 W S.
  assert (forall e z c t u, on_grid e (z :: t) (c :: u) -> on_grid e [z] [c]) as H1 by (intros ? ? ? ? ? H; inversion H; subst; constructor; [assumption|constructor]).
  set (L := (za :: zl) ++ (zb :: zm)).
  assert (simple_ring (closedZ L)) as S1 by (replace (closedZ L) with ((za :: zl) ++ (zb :: zm) ++ [za]) by (unfold L; cbn [closedZ app]; now rewrite <- app_assoc); exact S).
  assert (closedZ (Nat.iter (length (za :: zl)) rotZ L) = (zb :: zm) ++ (za :: zl) ++ [zb]) as EL.
  { unfold L. rewrite iter_app. cbn [closedZ app]. now rewrite <- app_assoc. }
  assert (simple_ring ((zb :: zm) ++ (za :: zl) ++ [zb])) as S2.
  { rewrite <- EL. apply simple_ring_open. apply simple_ring_open in S1. destruct S1 as (_ & S1).
    split; [unfold L; rewrite iter_app; discriminate|now apply simple_open_iter]. }
  apply within_app in W. destruct W as (W1 & W2). pose proof W1 as W1'. pose proof W2 as W2'. inversion W1'; inversion W2'; subst.
  destruct (C46_simple_ring e ((za :: zl) ++ (zb :: zm) ++ [za]) ((a :: l) ++ (b :: m) ++ [a]) He) as (_ & ->); [|apply within_app; split; [exact W1|apply within_app; split; [exact W2|repeat constructor; lia]]|exact S|].
  { repeat apply on_grid_app; eauto. }
  destruct (C46_simple_ring e ((zb :: zm) ++ (za :: zl) ++ [zb]) ((b :: m) ++ (a :: l) ++ [b]) He) as (_ & ->); [|apply within_app; split; [exact W2|apply within_app; split; [exact W1|repeat constructor; lia]]|exact S2|].
  { repeat apply on_grid_app; eauto. }
  rewrite <- EL, area2_iter. do 3 f_equal. unfold L. cbn [closedZ app]. now rewrite <- app_assoc.
Qed.
(** and walking the other way gives the other answer. *)
Lemma once_rev l : (exists a m, l = a :: m ++ [a]) -> once l -> once (rev l).
Proof.
  intros (a & m & E) O. set (n := (length l - 1)%nat). assert (length l = S n) as Ln by (unfold n; rewrite E; cbn; lia).
  assert (nth n l (0, 0)%R = nth 0 l (0, 0)%R) as Cl.
  { unfold n. rewrite E. cbn [length]. rewrite app_length. cbn [length]. replace (S (length m + 1) - 1)%nat with (S (length m)) by lia. cbn [nth]. rewrite app_nth2, Nat.sub_diag by lia. reflexivity. }
  assert (forall i s, (S i < length (rev l))%nat -> (0 <= s < 1)%R -> exists j t, (S j < length l)%nat /\ (0 <= t < 1)%R /\
    along (nth i (rev l) (0, 0)%R) (nth (S i) (rev l) (0, 0)%R) s = along (nth j l (0, 0)%R) (nth (S j) l (0, 0)%R) t /\
    ((s = 0%R /\ t = 0%R /\ j = ((n - i) mod n)%nat) \/ ((0 < s)%R /\ t = (1 - s)%R /\ j = (n - S i)%nat))) as K.
  { intros i s Hi Hs. rewrite rev_length in Hi. rewrite !rev_nth by lia. replace (length l - S i)%nat with (S (n - S i)) by lia. replace (length l - S (S i))%nat with (n - S i)%nat by lia.
    destruct (Req_dec s 0) as [->|Ns].
    - exists ((n - i) mod n)%nat, 0%R. assert ((n - i) mod n < n)%nat by (apply Nat.mod_upper_bound; lia). split; [lia|]. split; [lra|]. split; [|now left].
      rewrite !along_0. destruct (Nat.eq_dec i 0) as [->|Ni].
      + replace (S (n - 1)) with n by lia. rewrite Nat.sub_0_r, Nat.mod_same by lia. exact Cl.
      + rewrite Nat.mod_small by lia. f_equal. lia.
    - exists (n - S i)%nat, (1 - s)%R. split; [lia|]. split; [lra|]. split; [apply along_flip|]. right. repeat split; lra. }
  intros i j s t Hi Hj Hs Ht Eq.
  destruct (K i s Hi Hs) as (i' & s' & Hi' & Hs' & Ei & Ci), (K j t Hj Ht) as (j' & t' & Hj' & Ht' & Ej & Cj).
  rewrite Ei, Ej in Eq. destruct (O _ _ _ _ Hi' Hj' Hs' Ht' Eq) as (Q1 & Q2). rewrite rev_length in Hi, Hj. subst i' s'.
  destruct Ci as [(-> & C1 & C2)|(C0 & C1 & C2)], Cj as [(-> & D1 & D2)|(D0 & D1 & D2)]; try lra.
  - split; [|reflexivity]. rewrite C2 in D2. destruct (Nat.eq_dec i 0) as [->|Ni], (Nat.eq_dec j 0) as [->|Nj]; try reflexivity.
    + rewrite Nat.sub_0_r, Nat.mod_same, Nat.mod_small in D2 by lia. lia.
    + rewrite Nat.sub_0_r, Nat.mod_same, Nat.mod_small in D2 by lia. lia.
    + rewrite !Nat.mod_small in D2 by lia. lia.
  - split; [lia|lra].
Qed.
Lemma dedup_rev l : dedup (rev l) = rev (dedup l).
Proof.
  induction l as [|a l IH]; [reflexivity|]. destruct l as [|b l]; [reflexivity|]. cbn [rev]. rewrite <- app_assoc. cbn [app]. rewrite dedup_cons.
  destruct (same_pt_spec a b) as [<-|N].
  - rewrite <- IH. cbn [rev]. apply dedup_snoc_same.
  - cbn [rev]. rewrite <- IH. cbn [rev]. pose proof (dedup_app (rev l) b a [] (not_eq_sym N)) as D. cbn [app] in D. exact D.
Qed.
Lemma area2_rev l : area2 (rev l) = - area2 l.
Proof.
  unfold area2. induction l as [|a l IH]; [reflexivity|]. destruct l as [|b l]; [reflexivity|]. cbn [rev] in *. rewrite <- app_assoc. cbn [app].
  rewrite steps_snoc, IH. change (steps cross (a :: b :: l)) with (cross a b + steps cross (b :: l)). unfold cross. lia.
Qed.
Lemma simple_ring_rev zs : simple_ring zs -> simple_ring (rev zs).
Proof.
  intros ((a & m & E) & (b & k & D) & O). split; [|split].
  - exists a, (rev m). rewrite E. cbn [rev]. now rewrite rev_app_distr.
  - exists b, (rev k). rewrite dedup_rev, D. cbn [rev]. now rewrite rev_app_distr.
  - rewrite dedup_rev, map_rev. apply once_rev; [|exact O]. exists (real_pt b), (map real_pt k). rewrite D. cbn. now rewrite map_app.
Qed.
Theorem C46_reverse : forall e zs cs, -440 <= e <= 420 -> on_grid e zs cs -> within (2 ^ 49) zs -> simple_ring zs ->
  exists b, is_ccw_vec cs = Ok (Some b) /\ is_ccw_vec (rev cs) = Ok (Some (negb b)).
Proof.
  intros e zs cs He G W S. destruct (C46_simple_ring e zs cs He G W S) as (N & ->). eexists. split; [reflexivity|].
  destruct (C46_simple_ring e (rev zs) (rev cs) He) as (_ & ->).
  - clear - G. unfold on_grid in *. induction G; cbn [rev]; [constructor|]. apply Forall2_app; [assumption|repeat constructor; assumption || apply H].
  - now apply Forall_rev.
  - now apply simple_ring_rev.
  - rewrite area2_rev. destruct (Z.ltb_spec 0 (- area2 zs)), (Z.ltb_spec 0 (area2 zs)); try reflexivity; lia.
Qed.
(** It agrees with the test by signed area. *)
Lemma trapezoids_area2 a l z : trapezoids (a :: l ++ [z]) = - area2 (a :: l ++ [z]) + fst z * snd z - fst a * snd a.
Proof.
  revert a. induction l as [|b l IH]; intros [x y].
  - destruct z as [zx zy]. cbn. unfold area2, cross. cbn. ring.
  - cbn [app]. change (area2 ((x, y) :: b :: l ++ [z])) with (cross (x, y) b + area2 (b :: l ++ [z])). destruct b as [bx by_].
    change (trapezoids ((x, y) :: (bx, by_) :: l ++ [z])) with ((bx - x) * (y + by_) + trapezoids ((bx, by_) :: l ++ [z])). rewrite IH. unfold cross. cbn [fst snd]. ring.
Qed.
Theorem C46_agrees_with_area : forall e k zs cs, -440 <= e <= 420 -> exact_ring e k zs cs -> within (2 ^ 49) zs -> simple_ring zs ->
  exists b, is_ccw_vec cs = Ok (Some b) /\ is_ccw_area_vec cs = Ok b.
Proof.
  intros e k zs cs He X W S. pose proof X as X'. destruct X' as (_ & _ & _ & G & _).
  destruct (C46_simple_ring e zs cs He G W S) as (N & ->). eexists. split; [reflexivity|]. rewrite (C47_ccw_area e k zs cs X). f_equal.
  destruct S as ((a & m & ->) & _). rewrite trapezoids_area2. destruct (Z.ltb_spec (- area2 (a :: m ++ [a]) + fst a * snd a - fst a * snd a) 0), (Z.ltb_spec 0 (area2 (a :: m ++ [a]))); try reflexivity; lia.
Qed.
(** A ring that crosses itself can be told by its top alone. *)
Theorem C46_needs_simple_refuted : ~ (forall e zs cs, -440 <= e <= 420 -> on_grid e zs cs -> within (2 ^ 49) zs -> closed_chain zs -> area2 zs <> 0 ->
  is_ccw_vec cs = Ok (Some (0 <? area2 zs))).
Proof.
  intros H. set (zs := [(0, 0); (-9, -9); (9, -9); (-1, 1); (1, 1); (0, 0)]).
  specialize (H 0 zs (map (fun z => ipt (fst z) (snd z)) zs)).
  assert (is_ccw_vec (map (fun z => ipt (fst z) (snd z)) zs) = Ok (Some false)) as E by (vm_compute; reflexivity).
  rewrite E in H. assert (false = (0 <? area2 zs)) as Q; [|vm_compute in Q; discriminate].
  enough (Ok (Some false) = Ok (Some (0 <? area2 zs))) as K by (injection K as K; exact K). apply H.
  - lia.
  - unfold zs. cbn [map]. repeat constructor; cbn [fst snd]; apply grid_fofZ; lia.
  - unfold zs. repeat constructor; cbn; lia.
  - exists (0, 0), [(-9, -9); (9, -9); (-1, 1); (1, 1)]. reflexivity.
  - vm_compute. discriminate.
Qed.
(** A concave ring with a repeated point. *)
Definition dart : list (Z * Z) := [(0, 0); (0, 0); (4, 0); (4, 4); (2, 1); (0, 4); (0, 0)].
Definition dart_pts : list Coordinate := map (fun z => ipt (fst z) (snd z)) dart.
Lemma dart_simple : simple_ring dart.
Proof.
  split; [now exists (0, 0), [(0, 0); (4, 0); (4, 4); (2, 1); (0, 4)]|]. split; [now exists (0, 0), [(4, 0); (4, 4); (2, 1); (0, 4)]|].
  change (dedup dart) with [(0, 0); (4, 0); (4, 4); (2, 1); (0, 4); (0, 0)]. intros i j s t Hi Hj Hs Ht E. cbn [map length] in *.
  destruct i as [|[|[|[|[|i]]]]]; [..|lia]; (destruct j as [|[|[|[|[|j]]]]]; [..|lia]);
    pose proof (f_equal fst E) as Ex; pose proof (f_equal snd E) as Ey; unfold along, real_pt in Ex, Ey; cbn [nth fst snd] in Ex, Ey; (split; [reflexivity || (exfalso; lra)|lra]).
Qed.
Lemma dart_grid : on_grid 0 dart dart_pts /\ within (2 ^ 49) dart.
Proof.
  split; [|unfold dart; repeat constructor; cbn; lia]. unfold dart_pts, dart. cbn [map]. repeat constructor; cbn [fst snd]; apply grid_fofZ; lia.
Qed.
Lemma dart_exact : exact_ring 0 4 dart dart_pts.
Proof.
  split; [lia|]. split; [lia|]. split; [now exists (0, 0), [(0, 0); (4, 0); (4, 4); (2, 1); (0, 4)]|]. split; [apply dart_grid|].
  split; [unfold dart; repeat constructor; cbn; lia|cbn; lia].
Qed.
Example C46_simple_example : simple_ring dart /\ exact_ring 0 4 dart dart_pts /\ within (2 ^ 49) dart /\ on_grid 0 dart dart_pts /\ area2 dart = 20 /\ is_ccw_vec dart_pts = Ok (Some true) /\ is_ccw_vec (rev dart_pts) = Ok (Some false) /\ is_ccw_area_vec dart_pts = Ok true.
Proof. split; [exact dart_simple|]. split; [exact dart_exact|]. split; [apply dart_grid|]. split; [apply dart_grid|]. repeat split; vm_compute; reflexivity. Qed.

(** ** C69: centroids of polygons with simple rings *)
Lemma simple_well_turned e k zs cs : -300 <= e <= 300 -> k <= 2 ^ 49 -> flat_ring e k zs cs -> simple_ring zs -> well_turned zs cs.
Proof.
  intros He Hk (_ & G & W) S. apply (C46_simple_ring e); [lia|exact G| |exact S].
  unfold within in *. eapply Forall_impl; [|exact W]. cbv beta. lia.
Qed.
Lemma cube_small k n : 1 <= k -> 1 <= n -> n * (24 * (k * k * k)) <= 2 ^ 53 -> k <= 2 ^ 49.
Proof. intros. assert (k <= k * k * k) by nia. nia. Qed.
Lemma Forall2_well e k hzs hs : -300 <= e <= 300 -> k <= 2 ^ 49 -> Forall2 (flat_ring e k) hzs hs -> Forall simple_ring hzs -> Forall2 well_turned hzs hs.
Proof.
  intros He Hk F S. induction F as [|zs cs hzs hs H _ IH]; [constructor|]. inversion S; subst. constructor; [now apply (simple_well_turned e k)|now apply IH].
Qed.
Theorem C69_simple_polygon : forall hypot i e k p zs hzs, i32_arith i -> -300 <= e <= 300 -> 1 <= k ->
  flat_ring e k zs (spts p) -> Forall2 (flat_ring e k) hzs (hpts p) -> simple_ring zs -> Forall simple_ring hzs ->
  sum_len (zs :: hzs) * (24 * (k * k * k)) <= 2 ^ 53 -> Z.of_nat (length (zs :: hzs)) <= 2147483647 -> region size2 (zs, hzs) <> 0 ->
  exists c, centroid_of_polygon hypot i p = Ok (Some c) /\
    near2 (cx c) (IZR (region weight6x (zs, hzs)) / (3 * IZR (region size2 (zs, hzs))) * bp e) /\
    near2 (cy c) (IZR (region weight6y (zs, hzs)) / (3 * IZR (region size2 (zs, hzs))) * bp e) /\ cz c = fnan /\ cm c = fnan.
Proof.
  intros hypot i e k p zs hzs I He Hk Fs Fh Ss Sh B Bn Na.
  assert (k <= 2 ^ 49) as K.
  { apply (cube_small k (sum_len (zs :: hzs)) Hk); [|exact B]. unfold sum_len. rewrite total_cons. fold (sum_len hzs). pose proof (sum_len_nonneg hzs).
    destruct Ss as ((a & m & ->) & _). cbn [length]. lia. }
  apply (C69_polygon hypot i e k p zs hzs); try assumption; [now apply (simple_well_turned e k)|now apply (Forall2_well e k)].
Qed.
Theorem C69_simple_multi_polygon : forall hypot i e k m rs, i32_arith i -> -300 <= e <= 300 -> 1 <= k ->
  Forall2 (fun r p => flat_ring e k (fst r) (spts p) /\ Forall2 (flat_ring e k) (snd r) (hpts p)) rs (mg_polys m) ->
  Forall (fun r => simple_ring (fst r) /\ Forall simple_ring (snd r)) rs ->
  total (fun r => sum_len (fst r :: snd r)) rs * (24 * (k * k * k)) <= 2 ^ 53 -> total (fun r => Z.of_nat (length (fst r :: snd r))) rs <= 2147483647 -> total (region size2) rs <> 0 ->
  exists c, centroid_of_multi_polygon hypot i m = Ok (Some c) /\
    near2 (cx c) (IZR (total (region weight6x) rs) / (3 * IZR (total (region size2) rs)) * bp e) /\
    near2 (cy c) (IZR (total (region weight6y) rs) / (3 * IZR (total (region size2) rs)) * bp e).
Proof.
  intros hypot i e k m rs I He Hk F S B Bn Na.
  assert (k <= 2 ^ 49) as K.
  { destruct rs as [|r rs]; [now contradiction Na|]. apply (cube_small k (total (fun r => sum_len (fst r :: snd r)) (r :: rs)) Hk); [|exact B].
    assert (forall l, 0 <= total (fun r => sum_len (fst r :: snd r)) l) as P.
    { induction l as [|x l IH]; [apply Z.le_refl|]. rewrite total_cons. pose proof (sum_len_nonneg (fst x :: snd x)). lia. }
    rewrite total_cons. specialize (P rs). unfold sum_len at 1. rewrite total_cons. fold (sum_len (snd r)). pose proof (sum_len_nonneg (snd r)).
    inversion S as [|? ? ((( a & l & E) & _) & _) _]; subst. rewrite E. cbn [length]. lia. }
  apply (C69_multi_polygon hypot i e k m rs); try assumption.
  clear - F S He K. induction F as [|r p rs ps (H1 & H2) _ IH]; [constructor|]. inversion S as [|? ? (S1 & S2) S3]; subst.
  constructor; [|now apply IH]. split; [exact H1|]. split; [exact H2|]. split; [now apply (simple_well_turned e k)|now apply (Forall2_well e k)].
Qed.
Example C69_simple_example : flat_ring 0 4 dart dart_pts /\ simple_ring dart /\ region size2 (dart, []) = 20 /\ sum_len [dart] * (24 * (4 * 4 * 4)) <= 2 ^ 53.
Proof.
  split; [|split; [exact dart_simple|split; [reflexivity|vm_compute; discriminate]]].
  destruct dart_exact as (_ & _ & C & G & W & _). repeat split; try assumption; apply C.
Qed.
