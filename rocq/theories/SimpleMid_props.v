(** C46 and C50 for simple rings of arbitrary doubles of moderate size. *)
From Coq Require Import ZArith Bool List Reals Lia Lra.
From Flocq Require Import Core IEEE754.BinarySingleNaN.
From Verif Require Import Base F64 F64Facts F64Err DD_spec Coordinate_model CoordSeq_model Orientation_model Orientation_spec
  Orientation_proofs Orientation_props Measure_model Measure_spec Measure_proofs Measure_props Centroid_spec
  MeasureErr_spec MeasureErr_proofs MeasureErr_props LocateMid_spec
  PointLocation_model PointLocation_proofs PointLocation_props LocateMid_props
  Simple_spec Simple_proofs Cap_proofs SimpleCap_proofs Simple_props Winding_spec Winding_proofs Winding_props PointLocation_spec.
Import ListNotations.
Open Scope Z_scope.

(** Every finite double is a multiple of 2^-1074, so every list of finite
    points lies on that grid. *)
Lemma grid_finite x : fis_finite x = true -> exists n, grid (-1074) x n.
Proof. intros F. exists (rank x). now apply grid_rank. Qed.
Lemma grid_finite_pts cs : Forall fin_pt cs -> exists zs, on_grid (-1074) zs cs.
Proof.
  induction 1 as [|c cs (Fx & Fy) _ (zs & G)]; [exists []; constructor|].
  destruct (grid_finite _ Fx) as (n & Gx). destruct (grid_finite _ Fy) as (m & Gy).
  exists ((n, m) :: zs). constructor; [split; assumption|exact G].
Qed.

(** ** C46 *)
(** The turn at a highest vertex [v] of the ring, from [a] to [b], is beyond
    doubt; [w] is [v] or repeats it. *)
Definition clear_top (cs : list Coordinate) : Prop :=
  forall l1 a v l2 m1 w b m2, cs = l1 ++ a :: v :: l2 -> cs = m1 ++ w :: b :: m2 -> same_place v w ->
    (R_of (cy a) < R_of (cy v))%R -> (R_of (cy b) < R_of (cy v))%R ->
    (forall c, In c cs -> (R_of (cy c) <= R_of (cy v))%R) -> clear_of a v b.
Lemma split_nth {A} (l : list A) i d : (S i < length l)%nat -> exists l1 l2, l = l1 ++ nth i l d :: nth (S i) l d :: l2.
Proof.
  revert i. induction l as [|x l IH]; intros i H; [cbn in H; lia|]. destruct i as [|i].
  - destruct l as [|y l]; [cbn in H; lia|]. exists [], l. reflexivity.
  - cbn [length] in H. destruct (IH i ltac:(lia)) as (l1 & l2 & E). exists (x :: l1), l2. cbn [nth]. cbn [app]. now rewrite <- E.
Qed.
Lemma clear_of_ext a v b b' : same_place b b' -> clear_of a v b -> clear_of a v b'.
Proof.
  intros (X & Y) [H|[H|[H|H]]].
  - left. unfold one_range in *. now rewrite <- X, <- Y.
  - right; left. exact H.
  - right; right; left. unfold off_line, det_pts in *. now rewrite <- X, <- Y.
  - right; right; right. intros o O. pose proof (H o O). destruct O as [->| ->]; [now rewrite <- X|now rewrite <- Y].
Qed.
Lemma clear_top_right e zs cs n : on_grid e zs cs -> Forall mid_pt cs -> length zs = S n -> (0 < n)%nat -> nth 0 zs (0, 0)%Z = nth n zs (0, 0)%Z ->
  clear_top cs -> top_right zs cs n.
Proof.
  intros G M Ln N Cl C u k Hu Up Top Ek Down.
  pose proof (on_grid_length _ _ _ G) as Lc. rewrite Ln in Lc.
  assert (HB : (k mod n < n)%nat) by (apply Nat.mod_upper_bound; lia).
  assert (HC : (S k mod n < n)%nat) by (apply Nat.mod_upper_bound; lia).
  pose proof (bpow_gt_0 radix2 e) as Pe.
  assert (Gn : forall i, (i <= n)%nat -> R_of (cx (nth i cs coord_default)) = (IZR (fst (nth i zs (0, 0)%Z)) * bp e)%R /\ R_of (cy (nth i cs coord_default)) = (IZR (snd (nth i zs (0, 0)%Z)) * bp e)%R).
  { intros i Hi. destruct (grid_nth e zs cs i G ltac:(lia)) as ((_ & X) & (_ & Y)). split; assumption. }
  assert (Lt : forall i j, (i <= n)%nat -> (j <= n)%nat -> snd (nth i zs (0, 0)%Z) < snd (nth j zs (0, 0)%Z) -> (R_of (cy (nth i cs coord_default)) < R_of (cy (nth j cs coord_default)))%R).
  { intros i j Hi Hj H. rewrite (proj2 (Gn i Hi)), (proj2 (Gn j Hj)). apply Rmult_lt_compat_r; [exact Pe|]. now apply IZR_lt. }
  assert (Sm : forall i j, (i <= n)%nat -> (j <= n)%nat -> nth i zs (0, 0)%Z = nth j zs (0, 0)%Z -> same_place (nth i cs coord_default) (nth j cs coord_default)).
  { intros i j Hi Hj H. destruct (Gn i Hi) as (X & Y), (Gn j Hj) as (X' & Y'). split; [rewrite X, X'|rewrite Y, Y']; now rewrite H. }
  assert (Mi : forall i, (i <= n)%nat -> mid_pt (nth i cs coord_default)).
  { intros i Hi. rewrite Forall_forall in M. apply M, nth_In. lia. }
  (* the vertex after the top, as the end of a step *)
  assert (Es : nth (S (k mod n)) zs (0, 0)%Z = nth (S k mod n) zs (0, 0)%Z).
  { destruct (Nat.eq_dec (S (k mod n)) n) as [E|E].
    - assert (S k mod n = 0)%nat as ->.
      { symmetry. apply (Nat.mod_unique (S k) n (S (k / n))); [lia|]. pose proof (Nat.div_mod k n ltac:(lia)). nia. }
      now rewrite E.
    - f_equal. apply (Nat.mod_unique (S k) n (k / n)); [lia|]. pose proof (Nat.div_mod k n ltac:(lia)). lia. }
  assert (Cb : clear_of (nth u cs coord_default) (nth (S u) cs coord_default) (nth (S (k mod n)) cs coord_default)).
  { destruct (split_nth cs u coord_default ltac:(lia)) as (l1 & l2 & E1).
    destruct (split_nth cs (k mod n) coord_default ltac:(lia)) as (m1 & m2 & E2).
    apply (C l1 _ _ l2 m1 (nth (k mod n) cs coord_default) _ m2 E1 E2).
    - apply Sm; [lia|lia|]. now symmetry.
    - apply Lt; [lia|lia|exact Up].
    - apply Lt; [lia|lia|]. rewrite Es. exact Down.
    - intros c I. destruct (In_nth _ _ coord_default I) as (i & Hi & <-).
      rewrite (proj2 (Gn i ltac:(lia))), (proj2 (Gn (S u) ltac:(lia))). apply Rmult_le_compat_r; [lra|]. apply IZR_le, Top. lia. }
  apply orient_clear; try (apply Mi; lia).
  eapply clear_of_ext; [|exact Cb]. apply Sm; [lia|lia|exact Es].
Qed.
Lemma mid_bf1000 c : mid_pt c -> bf 1000 (cx c).
Proof. intros ((F & B & _) & _). apply bf_weak with 470; [lia|]. split; assumption. Qed.
(** On a simple ring whose turn at the top is beyond doubt, the direction test
    tells the sign of the area, which is not zero. *)
Theorem C46_simple_ring_clear : forall e zs cs, on_grid e zs cs -> Forall mid_pt cs -> simple_ring zs -> clear_top cs ->
  area2 zs <> 0 /\ is_ccw_vec cs = Ok (Some (0 <? area2 zs)).
Proof.
  intros e zs cs G M SR C. pose proof SR as ((x & m & Ez) & _).
  assert (length zs = S (length m + 1)) as Ln by (rewrite Ez; cbn; rewrite app_length; reflexivity).
  apply (simple_ccw_gen e (seq_of_dim_meas cs 2 0) zs); try assumption.
  - apply Forall_forall. intros c I. apply mid_bf1000. rewrite Forall_forall in M. now apply M.
  - apply (clear_top_right e); try assumption; [lia|lia|]. replace (length zs - 1)%nat with (S (length m)) by lia.
    rewrite Ez. cbn [nth]. rewrite app_nth2, Nat.sub_diag by lia. reflexivity.
Qed.
(** In particular it is right for all simple rings of horizontal and vertical
    steps. *)
Theorem C46_rectilinear : forall e zs cs, on_grid e zs cs -> Forall mid_pt cs -> simple_ring zs ->
  (forall l1 a b l2, cs = l1 ++ a :: b :: l2 -> axis_parallel a b) ->
  area2 zs <> 0 /\ is_ccw_vec cs = Ok (Some (0 <? area2 zs)).
Proof.
  intros e zs cs G M SR H. apply (C46_simple_ring_clear e); try assumption.
  intros l1 a v l2 m1 w b m2 E _ _ _ _ _. right; left. exact (H _ _ _ _ E).
Qed.
(** The sign of [area2] is that of the area of the ring of doubles. *)
Theorem C46_area_of_doubles : forall e zs cs, on_grid e zs cs -> closed_chain zs ->
  (rtrapezoids (map plane cs) = - (IZR (area2 zs) * (bp e * bp e)))%R.
Proof.
  intros e zs cs G (a & m & Ez).
  assert (T : rtrapezoids (map plane cs) = (IZR (trapezoids zs) * (bp e * bp e))%R).
  { clear Ez. induction G as [|z c zs cs (Gx & Gy) G IH]; [cbn; lra|].
    destruct G as [|z' c' zs cs (Gx' & Gy') G]; [destruct z; cbn; lra|].
    destruct z as [zx zy], z' as [zx' zy']. cbn [fst snd] in *.
    change (trapezoids ((zx, zy) :: (zx', zy') :: zs)) with ((zx' - zx) * (zy + zy') + trapezoids ((zx', zy') :: zs)).
    change (rtrapezoids (map plane (c :: c' :: cs))) with
      (((R_of (cx c') - R_of (cx c)) * (R_of (cy c) + R_of (cy c')) + rtrapezoids (map plane (c' :: cs)))%R).
    rewrite IH, (proj2 Gx), (proj2 Gy), (proj2 Gx'), (proj2 Gy').
    rewrite plus_IZR, mult_IZR, minus_IZR, plus_IZR. ring. }
  rewrite T, Ez, trapezoids_area2. rewrite minus_IZR, plus_IZR, opp_IZR. ring.
Qed.

(** ** C50 *)
Theorem C50_path_clear : forall p q ring, clear_ring p ring -> clear_ring q ring -> joined (map pt ring) (pt p) (pt q) ->
  locate_vec p ring = locate_vec q ring.
Proof.
  intros p q ring Gp Gq J. destruct (joined_off _ _ _ J) as (Op & Oq).
  destruct (C50_even_odd_clear p ring Gp Op) as (k & K & ->), (C50_even_odd_clear q ring Gq Oq) as (k' & K' & ->).
  rewrite <- (wind_odd _ _ _ K), <- (wind_odd _ _ _ K'). destruct Gp as (_ & _ & (a & m & z & E & Cl) & _).
  assert (map pt ring = pt a :: map pt m ++ [pt a]) as Em by (rewrite E; cbn [map]; rewrite map_app; cbn [map]; now rewrite Cl).
  rewrite Em in *. now rewrite (joined_wind _ _ _ _ J).
Qed.
Theorem C50_simple_ring_clear : forall e zs p ring, clear_ring p ring -> on_grid e zs ring -> simple_ring zs -> (exists z, on_grid e [z] [p]) -> ~ on_chain (pt p) (map pt ring) ->
  exists w, (forall w', winding (pt p) (map pt ring) w' <-> w' = w) /\
    ((w = 0 /\ locate_vec p ring = Ok EXTERIOR) \/ (w = Z.sgn (area2 zs) /\ w <> 0 /\ locate_vec p ring = Ok INTERIOR)).
Proof.
  intros e zs p ring Gr G S (z & Gz) Off. exists (wind (pairs (map pt ring)) (pt p)). split.
  { intros w'. split; [intros H; exact (winding_unique _ _ _ _ H (wind_winding _ _))|intros ->; apply wind_winding]. }
  destruct (C50_even_odd_clear p ring Gr Off) as (k & K & ->). rewrite <- (wind_odd _ _ _ K).
  destruct (simple_wind e zs ring p G S) as (Na & [->|W]); [|exact Off|now left|].
  - exists z. now inversion Gz.
  - right. rewrite W. split; [reflexivity|]. split; [rewrite Z.sgn_null_iff; exact Na|].
    destruct (Z.sgn_spec (area2 zs)) as [(_ & ->)|[(Q & ->)|(_ & ->)]]; [reflexivity|congruence|reflexivity].
Qed.
(** A step that crosses exactly one segment changes sides. *)
Theorem C50_cross_changes_clear : forall p q ring c d l1 l2, clear_ring p ring -> clear_ring q ring -> map pt ring = l1 ++ c :: d :: l2 ->
  meets_once (pt p) (pt q) c d l1 l2 -> side c d (pt p) <> 0%R ->
  (locate_vec p ring = Ok INTERIOR /\ locate_vec q ring = Ok EXTERIOR) \/ (locate_vec p ring = Ok EXTERIOR /\ locate_vec q ring = Ok INTERIOR).
Proof.
  intros p q ring c d l1 l2 Gp Gq El M N. destruct (ring_real ring) as (x & m & Em); [apply Gp|].
  assert (side c d (pt q) <> 0%R /\ (wind (pairs (map pt ring)) (pt q) = wind (pairs (map pt ring)) (pt p) + 1 \/ wind (pairs (map pt ring)) (pt q) = wind (pairs (map pt ring)) (pt p) - 1)) as (Nq & Dw).
  { rewrite Em in El |- *. destruct (Rtotal_order (side c d (pt p)) 0) as [Q|[Q|Q]]; [|contradiction|].
    - destruct (meets_wind _ _ _ _ _ _ x m El M Q) as (H1 & H2). split; [lra|now left].
    - assert (side c d (pt q) < 0)%R as Q'.
      { destruct M as ((s & t & Hs & Ht & E) & _).
        assert ((1 - s) * side c d (pt p) + s * side c d (pt q) = 0)%R as Z1; [|nra].
        replace ((1 - s) * side c d (pt p) + s * side c d (pt q))%R with (side c d (along (pt p) (pt q) s)) by (unfold side, along; cbn [fst snd]; ring).
        rewrite E. unfold side, along. cbn [fst snd]. ring. }
      destruct (meets_wind _ _ _ _ _ _ x m El (meets_flip _ _ _ _ _ _ M) Q') as (H1 & H2). split; [lra|right; lia]. }
  destruct (meets_off _ _ _ _ _ _ M N) as (Op & Oq). rewrite <- El in Op, Oq. specialize (Oq Nq).
  destruct (C50_even_odd_clear p ring Gp Op) as (k & K & ->), (C50_even_odd_clear q ring Gq Oq) as (k' & K' & ->).
  rewrite <- (wind_odd _ _ _ K), <- (wind_odd _ _ _ K').
  destruct Dw as [-> | ->]; rewrite ?Z.odd_add, ?Z.odd_sub; destruct (Z.odd (wind (pairs (map pt ring)) (pt p))); cbn; auto.
Qed.
(** The interior of a simple ring is on its left when it is
    counterclockwise and on its right when not. *)
Theorem C50_left_inside_clear : forall e zs p q ring c d l1 l2, clear_ring p ring -> clear_ring q ring -> clear_top ring -> on_grid e zs ring -> simple_ring zs ->
  (exists z w, on_grid e [z; w] [p; q]) ->
  map pt ring = l1 ++ c :: d :: l2 -> meets_once (pt p) (pt q) c d l1 l2 -> (side c d (pt p) < 0)%R ->
  (0 < side c d (pt q))%R /\
  exists b, is_ccw_vec ring = Ok (Some b) /\ locate_vec q ring = Ok (if b then INTERIOR else EXTERIOR) /\ locate_vec p ring = Ok (if b then EXTERIOR else INTERIOR).
Proof.
  intros e zs p q ring c d l1 l2 Gp Gq C G S (zp & zq & Gz) El M N. destruct (ring_real ring) as (x & m & Em); [apply Gp|].
  assert ((0 < side c d (pt q))%R /\ wind (pairs (map pt ring)) (pt q) = wind (pairs (map pt ring)) (pt p) + 1) as (Nq & Dw).
  { rewrite Em in El |- *. exact (meets_wind _ _ _ _ _ _ x m El M N). }
  split; [exact Nq|]. destruct (meets_off _ _ _ _ _ _ M ltac:(lra)) as (Op & Oq). rewrite <- El in Op, Oq. specialize (Oq ltac:(lra)).
  destruct (C46_simple_ring_clear e zs ring G (proj1 (proj2 Gp)) S C) as (Na & Eb). exists (0 <? area2 zs). split; [exact Eb|].
  inversion Gz as [|? ? ? ? Zp Gz']. inversion Gz' as [|? ? ? ? Zq _].
  destruct (simple_wind e zs ring p G S (ex_intro _ zp Zp) Op) as (_ & Wp), (simple_wind e zs ring q G S (ex_intro _ zq Zq) Oq) as (_ & Wq).
  destruct (C50_even_odd_clear p ring Gp Op) as (k & K & ->), (C50_even_odd_clear q ring Gq Oq) as (k' & K' & ->).
  rewrite <- (wind_odd _ _ _ K), <- (wind_odd _ _ _ K').
  destruct (Z.sgn_spec (area2 zs)) as [(P & Q)|[(P & Q)|(P & Q)]]; [|congruence|]; rewrite Q in *.
  - destruct (Z.ltb_spec 0 (area2 zs)); [|lia]. replace (wind (pairs (map pt ring)) (pt p)) with 0 by lia. replace (wind (pairs (map pt ring)) (pt q)) with 1 by lia. split; reflexivity.
  - destruct (Z.ltb_spec 0 (area2 zs)); [lia|]. replace (wind (pairs (map pt ring)) (pt p)) with (-1) by lia. replace (wind (pairs (map pt ring)) (pt q)) with 0 by lia. split; reflexivity.
Qed.

(** ** Examples *)
(** The triangle of size 2^60 and a point 2^-60 off its corner: their grid
    has 2^120 steps, far more than 2^49. *)
Definition big_zs : list (Z * Z) := [(0, 0); (2 ^ 120, 0); (0, 2 ^ 120); (0, 0)].
Lemma big_grid : on_grid (-60) big_zs big_triangle /\ on_grid (-60) [(1, 1)] [near_corner].
Proof.
  assert (G0 : grid (-60) f0 0) by (split; [reflexivity|change (R_of f0) with 0%R; lra]).
  assert (G1 : grid (-60) (mkf 1 60) (2 ^ 120)).
  { destruct (grid_mkf 1 60 ltac:(lia) ltac:(lia)) as (F & E). split; [exact F|]. rewrite E, (IZR_Zpower radix2) by lia. rewrite <- bpow_plus. change (120 + -60) with 60. lra. }
  assert (G2 : grid (-60) (mkf 1 (-60)) 1) by (apply grid_mkf; lia).
  split; repeat (apply Forall2_cons; [split; assumption|]); apply Forall2_nil.
Qed.
Lemma big_simple : simple_ring big_zs.
Proof.
  split; [now exists (0, 0), [(2 ^ 120, 0); (0, 2 ^ 120)]|]. split; [now exists (0, 0), [(2 ^ 120, 0); (0, 2 ^ 120)]|].
  change (dedup big_zs) with big_zs. intros i j s t Hi Hj Hs Ht E. unfold big_zs in *. cbn [map length] in *.
  assert (0 < IZR (2 ^ 120))%R as P by (apply IZR_lt; reflexivity).
  destruct i as [|[|[|i]]]; [..|lia]; (destruct j as [|[|[|j]]]; [..|lia]);
    pose proof (f_equal fst E) as Ex; pose proof (f_equal snd E) as Ey; unfold along, real_pt in Ex, Ey; cbn [nth fst snd] in Ex, Ey; (split; [reflexivity || (exfalso; nra)|nra]).
Qed.
Example C46_clear_example : on_grid (-60) big_zs big_triangle /\ Forall mid_pt big_triangle /\ simple_ring big_zs /\ clear_top big_triangle /\
  area2 big_zs = 2 ^ 240 /\ is_ccw_vec big_triangle = Ok (Some true).
Proof.
  split; [apply big_grid|]. split; [apply C50_clear_example|]. split; [exact big_simple|]. split; [|split; [reflexivity|vm_compute; reflexivity]].
  assert (R60 : R_of (mkf 1 60) = bp 60) by (apply mkf_pow; lia).
  assert (B1 : (0 < bp 60)%R) by apply bpow_gt_0.
  intros l1 a v l2 m1 w b m2 E1 E2 Sv Ha Hb _. unfold big_triangle in E1, E2.
  destruct l1 as [|? [|? [|? [|? l1]]]]; cbn [app] in E1; try discriminate E1.
  - injection E1 as <- <- _. cbn [new_xy cy] in Ha. lra.
  - injection E1 as _ <- <- _. destruct m1 as [|? [|? [|? [|? m1]]]]; cbn [app] in E2; try discriminate E2.
    + injection E2 as <- _ _. destruct Sv as (_ & Sv). cbn [new_xy cy] in Sv. rewrite R60 in Sv. change (R_of f0) with 0%R in Sv. lra.
    + injection E2 as _ <- _ _. destruct Sv as (_ & Sv). cbn [new_xy cy] in Sv. rewrite R60 in Sv. change (R_of f0) with 0%R in Sv. lra.
    + injection E2 as _ _ <- <- _. right; right. unfold off_line, det_pts, det3. cbn [new_xy cx cy].
      rewrite R60. change (R_of f0) with 0%R.
      assert (B3 : (bp (-102) <= / 1024)%R) by (change (/ 1024)%R with (bp (-10)); apply bpow_le; lia).
      rewrite (Rabs_left1 (0 - bp 60)), (Rabs_pos_eq (bp 60 - 0)) by lra.
      set (z := bp 60) in *. replace (0 - 0)%R with 0%R by ring. rewrite Rabs_R0.
      replace ((0 - z) * 0 - (z - 0) * (0 - z))%R with (z * z)%R by ring. rewrite (Rabs_pos_eq (z * z)) by nra.
      replace ((- (0 - z) + (z - 0)) * (- (0 - z) + 0 + (0 + - (0 - z))))%R with (4 * (z * z))%R by ring.
      assert (0 < z * z)%R by nra.
      assert (bp (-102) * (4 * (z * z)) <= / 1024 * (4 * (z * z)))%R by (apply Rmult_le_compat_r; lra). lra.
    + injection E2 as _ _ _ _ E2. destruct m1; discriminate E2.
  - injection E1 as _ _ <- <- _. cbn [new_xy cy] in Ha. rewrite R60 in Ha. change (R_of f0) with 0%R in Ha. lra.
  - injection E1 as _ _ _ _ E1. destruct l1; discriminate E1.
Qed.
Example C50_simple_clear_example : clear_ring near_corner big_triangle /\ on_grid (-60) big_zs big_triangle /\ simple_ring big_zs /\
  (exists z, on_grid (-60) [z] [near_corner]) /\ ~ on_chain (pt near_corner) (map pt big_triangle) /\ winding (pt near_corner) (map pt big_triangle) 1.
Proof.
  destruct C50_clear_example as (Cl & Off & Loc). destruct big_grid as (G & Gp).
  split; [exact Cl|]. split; [exact G|]. split; [exact big_simple|]. split; [now exists (1, 1)|]. split; [exact Off|].
  destruct (C50_simple_ring_clear (-60) big_zs near_corner big_triangle Cl G big_simple (ex_intro (fun z => on_grid (-60) [z] [near_corner]) (1, 1) Gp) Off) as (w & U & [(_ & X)|(W & _ & _)]).
  - rewrite Loc in X. discriminate X.
  - apply U. rewrite W. reflexivity.
Qed.
