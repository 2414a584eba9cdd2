(** C50: point location, paths and winding numbers. *)
From Coq Require Import ZArith Bool List Reals Lia Lra.
From Verif Require Import Base F64 F64Facts F64Err Coordinate_model DD_spec Orientation_model Orientation_spec Orientation_props Measure_spec Measure_proofs Measure_props Centroid_spec
  PointLocation_model PointLocation_proofs PointLocation_props Simple_spec Simple_proofs SimpleCap_proofs Winding_proofs Simple_props PointLocation_spec Winding_spec.
Import ListNotations.
Open Scope Z_scope.

Lemma pairs_segs l : pairs l = segs l.
Proof. induction l as [|a [|b l] IH]; [reflexivity..|]. change (pairs (a :: b :: l)) with ((a, b) :: pairs (b :: l)). now rewrite IH. Qed.
Lemma cr_crosses c d p : (crosses p c d /\ (snd c < snd d)%R <-> cr c d p = 1) /\ (crosses p c d /\ (snd d < snd c)%R <-> cr c d p = -1).
Proof.
  assert (forall c d, (snd c < snd d)%R -> (snd c <= snd p < snd d)%R -> (0 < dt c d p)%R <-> exists t, (0 <= t <= 1 /\ snd p = snd c + t * (snd d - snd c) /\ fst p < fst c + t * (fst d - fst c))%R) as K.
  { clear. intros c d H B. destruct (dt_up c d p H) as (U & _). rewrite U. unfold ev. split.
    - intros Q. exists ((snd p - snd c) / (snd d - snd c))%R. split; [apply frac01; lra|]. split; [field; lra|].
      replace ((snd p - snd c) / (snd d - snd c) * (fst d - fst c))%R with ((fst d - fst c) * (snd p - snd c) / (snd d - snd c))%R by (field; lra). exact Q.
    - intros (t & Ht & E & Q). replace (snd p - snd c)%R with (t * (snd d - snd c))%R by lra.
      replace ((fst d - fst c) * (t * (snd d - snd c)) / (snd d - snd c))%R with (t * (fst d - fst c))%R by (field; lra). exact Q. }
  assert (forall c d, (exists t, (0 <= t <= 1 /\ snd p = snd c + t * (snd d - snd c) /\ fst p < fst c + t * (fst d - fst c))%R) ->
     exists t, (0 <= t <= 1 /\ snd p = snd d + t * (snd c - snd d) /\ fst p < fst d + t * (fst c - fst d))%R) as Sw.
  { clear. intros c d (t & Ht & E & Q). exists (1 - t)%R. repeat split; lra. }
  pose proof (K c d) as K1. pose proof (K d c) as K2. rewrite (dt_flip c d) in K2. pose proof (Sw c d) as S1. pose proof (Sw d c) as S2. clear K Sw. unfold crosses, cr.
  destruct (Rle_dec (snd c) (snd p)), (Rlt_dec (snd p) (snd d)), (Rle_dec (snd d) (snd p)), (Rlt_dec 0 (dt c d p)), (Rlt_dec (dt c d p) 0); try lra;
    (split; split; [intros ((H & X) & Y)|intros Q|intros ((H & X) & Y)|intros Q]); try discriminate Q; try reflexivity; try (exfalso; lra);
    try (split; [split; [lra|]|lra]); try (apply K1; lra); try (exfalso; apply K1 in X; lra).
  all: try (apply S2, K2; lra).
  all: try (exfalso; apply S1 in X; apply K2 in X; lra).
Qed.
Lemma count_exists {A} (P : A -> Prop) l : exists k, count_of P l k.
Proof.
  induction l as [|a l (k & IH)]; [exists 0%nat; constructor|].
  destruct (Classical_Prop.classic (P a)); [exists (S k)|exists k]; constructor; assumption.
Qed.
Lemma wind_winding l p : winding p l (wind (pairs l) p).
Proof.
  unfold winding. rewrite pairs_segs. induction (segs l) as [|[c d] es (u & dn & U & D & E)].
  - exists 0%nat, 0%nat. repeat split; constructor.
  - destruct (cr_crosses c d p) as (C1 & C2). cbn [wind fst snd]. rewrite E.
    assert (cr c d p = 1 \/ cr c d p = 0 \/ cr c d p = -1) as [Q|[Q|Q]].
    { unfold cr. repeat match goal with |- context [if ?b then _ else _] => destruct b end; auto. }
    + exists (S u), dn. split; [constructor; [cbn; now apply C1|exact U]|]. split; [constructor; [cbn; rewrite C2; lia|exact D]|lia].
    + exists u, dn. split; [constructor; [cbn; rewrite C1; lia|exact U]|]. split; [constructor; [cbn; rewrite C2; lia|exact D]|lia].
    + exists u, (S dn). split; [constructor; [cbn; rewrite C1; lia|exact U]|]. split; [constructor; [cbn; now apply C2|exact D]|lia].
Qed.
Lemma wind_odd l p k : crossings p l k -> Z.odd (wind (pairs l) p) = Nat.odd k.
Proof.
  unfold crossings. rewrite pairs_segs. induction 1 as [|[c d] es k C _ IH|[c d] es k C _ IH]; [reflexivity|..]; cbn [wind fst snd] in *;
    destruct (cr_crosses c d p) as (C1 & C2).
  - assert (cr c d p = 1 \/ cr c d p = -1) as Q.
    { destruct (Rtotal_order (snd c) (snd d)) as [L|[L|L]]; [left; tauto| |right; tauto]. destruct C as ([(? & ?)|(? & ?)] & _); lra. }
    rewrite Z.odd_add, IH, Nat.odd_succ, <- Nat.negb_odd. destruct Q as [-> | ->], (Nat.odd k); reflexivity.
  - assert (cr c d p = 0) as ->; [|exact IH].
    assert (cr c d p = 1 \/ cr c d p = 0 \/ cr c d p = -1) as [Q|[Q|Q]]; [|apply C1 in Q; tauto|exact Q|apply C2 in Q; tauto].
    unfold cr. repeat match goal with |- context [if ?b then _ else _] => destruct b end; auto.
Qed.
Lemma along_seg a b q : on_seg q a b <-> exists t, (0 <= t <= 1)%R /\ q = along a b t.
Proof.
  split; intros (t & Ht & E); exists t; (split; [exact Ht|]).
  - destruct E as (Ex & Ey). apply injective_projections; assumption.
  - rewrite E. split; reflexivity.
Qed.
Lemma joined_off l p q : joined l p q -> ~ on_chain p l /\ ~ on_chain q l.
Proof.
  induction 1 as [p q H|p q r _ (I1 & I2) _ (J1 & J2)]; [|now split].
  split; [rewrite <- (along_0 p q)|rewrite <- (along_1 p q)]; apply H; lra.
Qed.
Lemma joined_wind x m p q : joined (x :: m ++ [x]) p q -> wind (pairs (x :: m ++ [x])) p = wind (pairs (x :: m ++ [x])) q.
Proof.
  induction 1 as [p q H|]; [|congruence]. apply wind_path. intros [c d] I s t Hs Ht E. cbn [fst snd] in E. apply (H s Hs).
  rewrite pairs_segs in I. exists c, d. split; [exact I|]. apply along_seg. exists t. now split.
Qed.

(** ** C50 *)
(** Points joined by a path that avoids the ring are located alike, whatever
    the ring. *)
Theorem C50_path : forall e p q ring, grid_ring e p ring -> grid_ring e q ring -> joined (map pt ring) (pt p) (pt q) ->
  locate_vec p ring = locate_vec q ring.
Proof.
  intros e p q ring Gp Gq J. destruct (joined_off _ _ _ J) as (Op & Oq).
  destruct (C50_even_odd e p ring Gp Op) as (k & K & _ & ->), (C50_even_odd e q ring Gq Oq) as (k' & K' & _ & ->).
  rewrite <- (wind_odd _ _ _ K), <- (wind_odd _ _ _ K'). destruct Gp as (_ & _ & _ & (a & m & z & E & Cl) & _).
  assert (map pt ring = pt a :: map pt m ++ [pt a]) as Em by (rewrite E; cbn [map]; rewrite map_app; cbn [map]; now rewrite Cl).
  rewrite Em in *. now rewrite (joined_wind _ _ _ _ J).
Qed.
Lemma grid_pt e z c : grid e (cx c) (fst z) /\ grid e (cy c) (snd z) -> pt c = scale (bp e) (real_pt z).
Proof. intros ((_ & Ex) & (_ & Ey)). unfold pt, scale, real_pt. cbn [fst snd]. rewrite Ex, Ey. f_equal; ring. Qed.
Lemma grid_pts e zs cs : on_grid e zs cs -> map pt cs = map (scale (bp e)) (map real_pt zs).
Proof. induction 1 as [|z c zs cs G _ IH]; [reflexivity|]. cbn [map]. rewrite IH, (grid_pt e z c G). reflexivity. Qed.
Lemma on_seg_scale k q c d : (0 < k)%R -> on_seg (scale k q) (scale k c) (scale k d) <-> on_seg q c d.
Proof.
  intros H. unfold on_seg, scale. cbn [fst snd]. split; intros (t & Ht & Ex & Ey); exists t; (split; [exact Ht|]); split.
  - apply (Rmult_eq_reg_l k); [lra|lra].
  - apply (Rmult_eq_reg_l k); [lra|lra].
  - rewrite Ex. ring.
  - rewrite Ey. ring.
Qed.
Lemma segs_real f (l : list (Z * Z)) : segs (map f l) = map (fun s => (f (fst s), f (snd s) : R * R)) (segs l).
Proof. induction l as [|a [|b l] IH]; [reflexivity..|]. cbn [map] in *. change (segs (f a :: f b :: map f l)) with ((f a, f b) :: segs (f b :: map f l)). rewrite IH. reflexivity. Qed.
(** Steps of the ring without repeated points are steps of the ring. *)
Lemma dedup_segs zs a b : In (a, b) (segs (dedup zs)) -> In (a, b) (segs zs).
Proof.
  induction zs as [|x l IH]; [auto|]. destruct l as [|y l]; [auto|]. rewrite dedup_cons. destruct (same_pt_spec x y) as [_|_].
  - intros I. right. now apply IH.
  - destruct (dedup_head y l) as (m & E). rewrite E in *. intros [I|I]; [left; exact I|right; now apply IH].
Qed.
(** The winding number of a simple ring around a point off it. *)
Lemma simple_wind e zs ring p : on_grid e zs ring -> simple_ring zs -> (exists z, grid e (cx p) (fst z) /\ grid e (cy p) (snd z)) -> ~ on_chain (pt p) (map pt ring) ->
  area2 zs <> 0 /\ (wind (pairs (map pt ring)) (pt p) = 0 \/ wind (pairs (map pt ring)) (pt p) = Z.sgn (area2 zs)).
Proof.
  intros G ((x & m & Ez) & (a & k & Ed) & O) (z & Gz) Off.
  assert (0 < bp e)%R as Hb by apply Flocq.Core.Raux.bpow_gt_0.
  rewrite (grid_pt e z p Gz), (grid_pts e zs ring G), (wind_scale (bp e)) by exact Hb.
  rewrite <- wind_dedup, <- (area2_dedup zs). rewrite Ed in *.
  assert (3 <= length (a :: k))%nat as L3.
  { rewrite <- (map_length real_pt). apply once_three; [|rewrite closed_map; exact O]. rewrite closed_map, map_length. cbn. rewrite app_length. cbn. lia. }
  destruct (wleft_area a k O L3) as (Na & W). split; [exact Na|].
  destruct (wind_simple (map real_pt (a :: k)) (real_pt z)) as [H|[H|H]].
  - now rewrite map_length.
  - rewrite closed_map. exact O.
  - intros [c d] I t Ht E. cbn [fst snd] in E. apply Off. unfold Simple_proofs.ring in I. rewrite closed_map, pairs_segs, <- Ed, segs_real in I.
    apply in_map_iff in I. destruct I as ([c0 d0] & Ecd & I). cbn [fst snd] in Ecd. apply dedup_segs in I.
    exists (scale (bp e) c), (scale (bp e) d). split.
    + rewrite (grid_pts e zs ring G), map_map, segs_real. apply in_map_iff. exists (c0, d0). split; [|exact I]. cbn [fst snd]. now injection Ecd as <- <-.
    + rewrite (grid_pt e z p Gz). apply on_seg_scale; [exact Hb|]. apply along_seg. now exists t.
  - left. unfold Simple_proofs.ring in H. rewrite closed_map in H. exact H.
  - unfold Simple_proofs.ring in H. rewrite closed_map in H. unfold Simple_proofs.ring in W. rewrite closed_map in W. rewrite H, W.
    destruct (Z.ltb_spec 0 (area2 (a :: k ++ [a]))); [right; rewrite Z.sgn_pos by assumption; reflexivity|now left].
  - unfold Simple_proofs.ring in H. rewrite closed_map in H. unfold Simple_proofs.ring in W. rewrite closed_map in W. rewrite H, W.
    destruct (Z.ltb_spec 0 (area2 (a :: k ++ [a]))); [now left|right; rewrite Z.sgn_neg by lia; reflexivity].
Qed.
Lemma winding_unique p l w w' : winding p l w -> winding p l w' -> w = w'.
Proof. intros (u & d & U & D & ->) (u' & d' & U' & D' & ->). rewrite (count_of_fun _ _ _ _ U U'), (count_of_fun _ _ _ _ D D'). reflexivity. Qed.
(** Around a point off a simple ring the ring turns once, in its own
    direction, or not at all; the point is interior in the first case. *)
Theorem C50_simple_ring : forall e zs p ring, grid_ring e p ring -> on_grid e zs ring -> simple_ring zs -> ~ on_chain (pt p) (map pt ring) ->
  exists w, (forall w', winding (pt p) (map pt ring) w' <-> w' = w) /\
    ((w = 0 /\ locate_vec p ring = Ok EXTERIOR) \/ (w = Z.sgn (area2 zs) /\ w <> 0 /\ locate_vec p ring = Ok INTERIOR)).
Proof.
  intros e zs p ring Gr G S Off. exists (wind (pairs (map pt ring)) (pt p)). split.
  { intros w'. split; [intros H; exact (winding_unique _ _ _ _ H (wind_winding _ _))|intros ->; apply wind_winding]. }
  destruct (C50_even_odd e p ring Gr Off) as (k & K & _ & ->). rewrite <- (wind_odd _ _ _ K).
  destruct (simple_wind e zs ring p G S) as (Na & [->|W]); [|exact Off|now left|].
  - destruct Gr as (_ & ((n & _ & Gx) & (n' & _ & Gy)) & _). exists (n, n'). now split.
  - right. rewrite W. split; [reflexivity|]. split; [rewrite Z.sgn_null_iff; exact Na|].
    destruct (Z.sgn_spec (area2 zs)) as [(_ & ->)|[(Q & ->)|(_ & ->)]]; [reflexivity|congruence|reflexivity].
Qed.
(** Crossing one step of any ring changes sides. *)
Definition meets_once (p q c d : R * R) (l1 l2 : list (R * R)) : Prop :=
  (exists s t, (0 < s < 1)%R /\ (0 < t < 1)%R /\ along p q s = along c d t) /\
  (forall t, (0 <= t <= 1)%R -> ~ on_chain (along p q t) (l1 ++ [c])) /\ (forall t, (0 <= t <= 1)%R -> ~ on_chain (along p q t) (d :: l2)).
Definition side (c d p : R * R) : R := ((fst d - fst c) * (snd p - snd c) - (snd d - snd c) * (fst p - fst c))%R.
Lemma meets_off p q c d l1 l2 : meets_once p q c d l1 l2 -> side c d p <> 0%R -> ~ on_chain p (l1 ++ c :: d :: l2) /\ (side c d q <> 0%R -> ~ on_chain q (l1 ++ c :: d :: l2)).
Proof.
  intros (_ & M1 & M2) N.
  assert (forall t, (0 <= t <= 1)%R -> side c d (along p q t) <> 0%R -> ~ on_chain (along p q t) (l1 ++ c :: d :: l2)) as K.
  { intros t Ht Nt (a & b & I & Hs). rewrite <- pairs_segs, pairs_split in I. apply in_app_or in I. rewrite !pairs_segs in I. destruct I as [I|[I|I]].
    - apply (M1 t Ht). now exists a, b.
    - injection I as <- <-. apply Nt. destruct Hs as (u & _ & Ex & Ey). unfold side. rewrite Ex, Ey. ring.
    - apply (M2 t Ht). now exists a, b. }
  split; [|intros Nq].
  - rewrite <- (along_0 p q). apply K; [lra|]. now rewrite along_0.
  - rewrite <- (along_1 p q). apply K; [lra|]. now rewrite along_1.
Qed.
Lemma meets_wind p q c d l1 l2 x m : x :: m ++ [x] = l1 ++ c :: d :: l2 -> meets_once p q c d l1 l2 -> (side c d p < 0)%R ->
  (0 < side c d q)%R /\ wind (pairs (x :: m ++ [x])) q = wind (pairs (x :: m ++ [x])) p + 1.
Proof.
  intros E ((s & t & Hs & Ht & Ex) & M1 & M2) D.
  assert (forall l, (forall t, (0 <= t <= 1)%R -> ~ on_chain (along p q t) l) -> forall e, In e (pairs l) -> apart p q (fst e) (snd e)) as K.
  { clear. intros l H [c d] I s t Hs Ht Q. cbn [fst snd] in Q. apply (H s Hs). rewrite pairs_segs in I. exists c, d. split; [exact I|]. apply along_seg. now exists t. }
  exact (wind_cross x m l1 c d l2 p q s t E Hs Ht Ex D (K _ M1) (K _ M2)).
Qed.
Lemma meets_flip p q c d l1 l2 : meets_once p q c d l1 l2 -> meets_once q p c d l1 l2.
Proof.
  intros ((s & t & Hs & Ht & E) & M1 & M2). split; [exists (1 - s)%R, t; repeat split; try lra; rewrite along_flip; now replace (1 - (1 - s))%R with s by ring|].
  split; intros u Hu; rewrite along_flip; [apply M1|apply M2]; lra.
Qed.
Lemma ring_real ring : ring_closed ring -> exists x m, map pt ring = x :: m ++ [x].
Proof. intros (a & m & z & E & Cl). exists (pt a), (map pt m). rewrite E. cbn [map]. rewrite map_app. cbn [map]. now rewrite Cl. Qed.
Theorem C50_cross_changes : forall e p q ring c d l1 l2, grid_ring e p ring -> grid_ring e q ring -> map pt ring = l1 ++ c :: d :: l2 ->
  meets_once (pt p) (pt q) c d l1 l2 -> side c d (pt p) <> 0%R ->
  (locate_vec p ring = Ok INTERIOR /\ locate_vec q ring = Ok EXTERIOR) \/ (locate_vec p ring = Ok EXTERIOR /\ locate_vec q ring = Ok INTERIOR).
Proof.
  intros e p q ring c d l1 l2 Gp Gq El M N. destruct (ring_real ring) as (x & m & Em); [apply Gp|].
  assert (side c d (pt q) <> 0%R /\ (wind (pairs (map pt ring)) (pt q) = wind (pairs (map pt ring)) (pt p) + 1 \/ wind (pairs (map pt ring)) (pt q) = wind (pairs (map pt ring)) (pt p) - 1)) as (Nq & Dw).
  { rewrite Em in El |- *. destruct (Rtotal_order (side c d (pt p)) 0) as [Q|[Q|Q]]; [|contradiction|].
    - destruct (meets_wind _ _ _ _ _ _ x m El M Q) as (H1 & H2). split; [lra|now left].
    - assert (side c d (pt q) < 0)%R as Q'.
      { destruct M as ((s & t & Hs & Ht & E) & _).
        assert ((1 - s) * side c d (pt p) + s * side c d (pt q) = 0)%R as Z1; [|nra].
        replace ((1 - s) * side c d (pt p) + s * side c d (pt q))%R with (side c d (along (pt p) (pt q) s)) by (unfold side, along; cbn [fst snd]; ring).
        rewrite E. unfold side, along. cbn [fst snd]. ring. }
      destruct (meets_wind _ _ _ _ _ _ x m El (meets_flip _ _ _ _ _ _ M) Q') as (H1 & H2). split; [lra|right; lia]. }
  destruct (meets_off _ _ _ _ _ _ M N) as (Op & Oq). rewrite <- El in Op, Oq. specialize (Oq Nq).
  destruct (C50_even_odd e p ring Gp Op) as (k & K & _ & ->), (C50_even_odd e q ring Gq Oq) as (k' & K' & _ & ->).
  rewrite <- (wind_odd _ _ _ K), <- (wind_odd _ _ _ K').
  destruct Dw as [-> | ->]; rewrite ?Z.odd_add, ?Z.odd_sub; destruct (Z.odd (wind (pairs (map pt ring)) (pt p))); cbn; auto.
Qed.
(** The interior of a simple ring is on its left when it is
    counterclockwise and on its right when not. *)
Theorem C50_left_inside : forall e zs p q ring c d l1 l2, grid_ring e p ring -> grid_ring e q ring -> on_grid e zs ring -> within (2 ^ 49) zs -> simple_ring zs ->
  map pt ring = l1 ++ c :: d :: l2 -> meets_once (pt p) (pt q) c d l1 l2 -> (side c d (pt p) < 0)%R ->
  (0 < side c d (pt q))%R /\
  exists b, is_ccw_vec ring = Ok (Some b) /\ locate_vec q ring = Ok (if b then INTERIOR else EXTERIOR) /\ locate_vec p ring = Ok (if b then EXTERIOR else INTERIOR).
Proof.
  intros e zs p q ring c d l1 l2 Gp Gq G W S El M N. destruct (ring_real ring) as (x & m & Em); [apply Gp|].
  assert ((0 < side c d (pt q))%R /\ wind (pairs (map pt ring)) (pt q) = wind (pairs (map pt ring)) (pt p) + 1) as (Nq & Dw).
  { rewrite Em in El |- *. exact (meets_wind _ _ _ _ _ _ x m El M N). }
  split; [exact Nq|]. destruct (meets_off _ _ _ _ _ _ M ltac:(lra)) as (Op & Oq). rewrite <- El in Op, Oq. specialize (Oq ltac:(lra)).
  destruct (C46_simple_ring e zs ring (proj1 Gp) G W S) as (Na & Eb). exists (0 <? area2 zs). split; [exact Eb|].
  assert (forall p, grid_ring e p ring -> exists z, grid e (cx p) (fst z) /\ grid e (cy p) (snd z)) as Z.
  { intros r (_ & ((n & _ & Gx) & (n' & _ & Gy)) & _). exists (n, n'). now split. }
  destruct (simple_wind e zs ring p G S (Z p Gp) Op) as (_ & Wp), (simple_wind e zs ring q G S (Z q Gq) Oq) as (_ & Wq).
  destruct (C50_even_odd e p ring Gp Op) as (k & K & _ & ->), (C50_even_odd e q ring Gq Oq) as (k' & K' & _ & ->).
  rewrite <- (wind_odd _ _ _ K), <- (wind_odd _ _ _ K').
  destruct (Z.sgn_spec (area2 zs)) as [(P & Q)|[(P & Q)|(P & Q)]]; [|congruence|]; rewrite Q in *.
  - destruct (Z.ltb_spec 0 (area2 zs)); [|lia]. replace (wind (pairs (map pt ring)) (pt p)) with 0 by lia. replace (wind (pairs (map pt ring)) (pt q)) with 1 by lia. split; reflexivity.
  - destruct (Z.ltb_spec 0 (area2 zs)); [lia|]. replace (wind (pairs (map pt ring)) (pt p)) with (-1) by lia. replace (wind (pairs (map pt ring)) (pt q)) with 0 by lia. split; reflexivity.
Qed.
Lemma Rz z : Z.abs z <= 2 ^ 53 -> R_of (fofZ z) = IZR z.
Proof. intros H. rewrite (proj2 (grid_fofZ z H)). cbn. lra. Qed.
Lemma dart_real : map pt dart_pts = map real_pt dart.
Proof. unfold dart_pts, dart, pt, ipt, new_xy, real_pt. cbn [map fst snd cx cy]. rewrite !Rz by lia. reflexivity. Qed.
Lemma dart_ring x y : Z.abs x <= 100 -> Z.abs y <= 100 -> grid_ring 0 (ipt x y) dart_pts.
Proof.
  intros Hx Hy. split; [lia|]. split; [apply ipt_gpt; lia|]. split; [unfold dart_pts, dart; cbn [map]; repeat constructor; apply ipt_gpt; cbn; lia|].
  split; [|cbn; unfold i32_max; lia]. exists (ipt 0 0), [ipt 0 0; ipt 4 0; ipt 4 4; ipt 2 1; ipt 0 4], (ipt 0 0). split; reflexivity.
Qed.
Lemma ipt_real x y : Z.abs x <= 100 -> Z.abs y <= 100 -> pt (ipt x y) = (IZR x, IZR y).
Proof. intros Hx Hy. unfold pt, ipt, new_xy. cbn [cx cy]. rewrite !Rz by lia. reflexivity. Qed.
Ltac miss := intros t Ht (a & b & I & (u & Hu & Ex & Ey)); unfold along in Ex, Ey;
  repeat (destruct I as [I|I]; [injection I as <- <-; cbn [fst snd] in Ex, Ey; lra|]); destruct I.
(** From (1, 1) to (3, 1) around the notch, and from (1, -1) to (1, 1) across
    the first step. *)
Example C50_path_example : grid_ring 0 (ipt 1 1) dart_pts /\ grid_ring 0 (ipt 3 1) dart_pts /\ joined (map pt dart_pts) (pt (ipt 1 1)) (pt (ipt 3 1)) /\
  on_chain (along (pt (ipt 1 1)) (pt (ipt 3 1)) (1 / 2)) (map pt dart_pts).
Proof.
  split; [apply dart_ring; lia|]. split; [apply dart_ring; lia|]. rewrite dart_real, !ipt_real by lia. unfold dart, real_pt. cbn [map fst snd]. split.
  - apply joined_more with (2, 1 / 2)%R; apply joined_one; miss.
  - exists (4, 4)%R, (2, 1)%R. split; [cbn; auto|]. exists 1%R. unfold along. cbn [fst snd]. lra.
Qed.
Example C50_cross_example : grid_ring 0 (ipt 1 (-1)) dart_pts /\ map pt dart_pts = [(0, 0)%R] ++ (0, 0)%R :: (4, 0)%R :: [(4, 4); (2, 1); (0, 4); (0, 0)]%R /\
  meets_once (pt (ipt 1 (-1))) (pt (ipt 1 1)) (0, 0)%R (4, 0)%R [(0, 0)%R] [(4, 4); (2, 1); (0, 4); (0, 0)]%R /\ (side (0, 0) (4, 0) (pt (ipt 1 (-1))) < 0)%R /\
  ~ on_chain (pt (ipt 1 1)) (map pt dart_pts) /\ is_ccw_vec dart_pts = Ok (Some true) /\ locate_vec (ipt 1 1) dart_pts = Ok INTERIOR /\ locate_vec (ipt 1 (-1)) dart_pts = Ok EXTERIOR.
Proof.
  split; [apply dart_ring; lia|]. rewrite dart_real, !ipt_real by lia. unfold dart, real_pt. cbn [map fst snd]. split; [reflexivity|]. split; [|split; [|split]].
  - split; [exists (1 / 2)%R, (1 / 4)%R; unfold along; cbn [fst snd]; repeat split; try lra; f_equal; lra|]. split; miss.
  - unfold side. cbn [fst snd]. lra.
  - intros (a & b & I & (u & Hu & Ex & Ey)). repeat (destruct I as [I|I]; [injection I as <- <-; cbn [fst snd] in Ex, Ey; lra|]); destruct I.
  - repeat split; vm_compute; reflexivity.
Qed.
