(** C69: centroids. *)
From Coq Require Import ZArith Bool List Lia Reals Lra.
From Flocq Require Import Core BinarySingleNaN.
From Verif Require Import Base F64 F64Facts F64Err NumLink Coordinate_model Coordinate_spec Coordinate_proofs CoordArrays_spec Envelope_model Envelope_spec
  CoordArrays_model CoordArrays_proofs CoordSeq_model CoordSeq_proofs CoordSeq_props PrecisionModel_model Orientation_model Orientation_spec Orientation_props
  Measure_model Measure_spec Measure_proofs Measure_props Matrix_model Geom_model Geom_proofs Polygon_proofs Line_props Polygon_props Multi_props
  Centroid_model Centroid_spec Centroid_proofs.
Import ListNotations.
Open Scope Z_scope.

(** ** Points *)
Lemma add_zero_div_one x : nn x -> feqb (fdiv (fadd f0 x) f1) x = true.
Proof.
  intros N. destruct x as [[]|[]| |s m e H]; try reflexivity; try discriminate N.
  assert (fadd f0 (B754_finite s m e H) = B754_finite s m e H) as -> by reflexivity.
  set (x := B754_finite s m e H). assert (fis_finite x = true) as F by reflexivity.
  assert (R_of f1 = 1)%R as R1 by (change f1 with (fofZ 1); rewrite (proj2 (grid_fofZ 1 ltac:(cbn; lia))); cbn; lra).
  assert (RN (R_of x / R_of f1) = R_of x) as E.
  { rewrite R1. unfold Rdiv. rewrite Rinv_1, Rmult_1_r. apply round_generic; [apply valid_rnd_N|]. apply generic_format_B2R. }
  destruct (fdiv_R x f1 F) as [F' R']; [rewrite R1; lra|rewrite E; apply abs_B2R_lt_emax|].
  rewrite feqb_R by assumption. rewrite R', E. now apply Req_bool_true.
Qed.
(** The centroid of a point is the point; of the empty point, nothing. *)
Theorem C69_point : forall i p, i32_arith i ->
  (ppts p = [] -> centroid_of_point i p = Ok None) /\
  (forall c, ppts p = [c] -> nn_xy c -> exists r, centroid_of_point i p = Ok (Some r) /\ pt_eq r c /\ cz r = fnan /\ cm r = fnan).
Proof.
  intros i p I. unfold centroid_of_point, cn_of_point, pt_coordinate, ppts, seq_size, pt_is_empty. split.
  - intros E. unfold seq_size. rewrite E. reflexivity.
  - intros c E (Nx & Ny). unfold seq_size, seq_coord, idx. rewrite E. cbn [length Nat.eqb nth_error bind]. unfold add_point. cbn [cn_count cn_default].
    rewrite (i32_in i) by (exact I || lia). cbn [bind]. eexists. split; [reflexivity|]. cbn [new_xy cx cy cz cm].
    split; [|split; reflexivity]. split; apply (add_zero_div_one _); assumption.
Qed.
(** The centroid of points added one by one is their mean, correctly rounded. *)
Theorem C69_mean : forall i e k zs cs, i32_arith i -> -300 <= e <= 300 -> 0 <= k -> on_grid e zs cs -> within k zs -> zs <> [] ->
  Z.of_nat (length zs) * k <= 2 ^ 53 -> Z.of_nat (length zs) <= 2147483647 ->
  exists st c, foldM (add_point i) cs cn_default = Ok st /\ cn_centroid st = Some c /\
    rounded (cx c) (IZR (total fst zs) / IZR (Z.of_nat (length zs)) * bp e) /\ rounded (cy c) (IZR (total snd zs) / IZR (Z.of_nat (length zs)) * bp e).
Proof.
  intros i e k zs cs I He Hk G W Ne B Bn.
  assert (forall st n px py, lin e st 0 0 0 n px py -> grid (2 * e) (cn_area2 st) 0 -> 0 <= n -> n + Z.of_nat (length zs) <= 2147483647 -> Z.abs px <= n * k -> Z.abs py <= n * k ->
    (n + Z.of_nat (length zs)) * k <= 2 ^ 53 ->
    exists st', foldM (add_point i) cs st = Ok st' /\ grid (2 * e) (cn_area2 st') 0 /\ lin e st' 0 0 0 (n + Z.of_nat (length zs)) (px + total fst zs) (py + total snd zs) /\
      Z.abs (px + total fst zs) <= 2 ^ 53 /\ Z.abs (py + total snd zs) <= 2 ^ 53) as Gen.
  { clear Ne B Bn. induction G as [|z c zs cs [G1 G2] G IH]; intros st n px py L A N0 N1 Bx By_ B.
    - exists st. split; [reflexivity|]. unfold total. cbn [map fold_right length]. rewrite !Z.add_0_r. cbn [length] in B. split; [exact A|]. split; [exact L|]. lia.
    - inversion W as [|? ? [W1 W2] W']; subst. cbn [foldM length] in *. rewrite Nat2Z.inj_succ in *.
      destruct L as (La & Ln & Lx & Ly). unfold add_point. rewrite Ln, (i32_in i) by (exact I || lia). cbn [bind].
      assert (Z.abs (px + fst z) <= (n + 1) * k /\ Z.abs (py + snd z) <= (n + 1) * k) as (Hx & Hy) by lia.
      assert ((n + 1) * k <= 2 ^ 53) as Hb by nia.
      edestruct (IH W') with (n := n + 1) (px := px + fst z) (py := py + snd z) as (st' & E & A' & L' & Bx' & By'); [| | | | | | |exists st'; split; [exact E|]].
      + split; [exact La|]. split; [reflexivity|]. split; cbn [cn_pts set_x set_y cx cy]; apply grid_add; try assumption; lia.
      + exact A.
      + lia.
      + lia.
      + lia.
      + lia.
      + lia.
      + rewrite !total_cons, !Z.add_assoc. replace (n + Z.succ (Z.of_nat (length zs))) with (n + 1 + Z.of_nat (length zs)) by lia. auto. }
  destruct (Gen cn_default 0 0 0) as (st & E & A & L & Bx & By_).
  - repeat split; apply grid_f0.
  - apply grid_f0.
  - lia.
  - lia.
  - lia.
  - lia.
  - lia.
  - rewrite !Z.add_0_l in *. exists st. destruct (centroid_of_dots e st 0 0 (Z.of_nat (length zs)) (total fst zs) (total snd zs)) as (c & Ec & Rx & Ry & _).
    + exact He. + exact A. + exact L. + unfold small5, small3. lia. + destruct zs; [easy|]. cbn [length] in *. lia.
    + exists c. auto.
Qed.

(** ** Line strings *)
(** Horizontal and vertical lines: the length-weighted mean of the midpoints, correctly rounded. *)
Theorem C69_line : forall hypot i e k l zs, i32_arith i -> hypot_axis hypot -> -300 <= e <= 300 -> 1 <= k ->
  on_grid e zs (lpts l) -> within k zs -> rectilinear zs -> zs <> [] -> Z.of_nat (length zs) * (4 * (k * k)) <= 2 ^ 53 ->
  exists c, centroid_of_line hypot i l = Ok (Some c) /\
    (0 < line_len zs -> rounded (cx c) (IZR (line2x zs) / (2 * IZR (line_len zs)) * bp e) /\ rounded (cy c) (IZR (line2y zs) / (2 * IZR (line_len zs)) * bp e)) /\
    (line_len zs = 0 -> rounded (cx c) (IZR (fst (hd (0, 0) zs)) * bp e) /\ rounded (cy c) (IZR (snd (hd (0, 0) zs)) * bp e)).
Proof.
  intros hypot i e k l zs I Ha He Hk G W Rl Ne B. unfold centroid_of_line, cn_of_line, ln_coordinates, seq_to_array. fold (lpts l).
  destruct (lines_lin hypot i e k zs (lpts l) cn_default 0 0 0 0 0 0 0) as (st & E & _ & Ea & _ & L & Sm); try assumption; try lia.
  { repeat split; assumption. } { repeat split; apply grid_f0. } { unfold small5, small3. lia. }
  rewrite E. cbn [bind]. rewrite !Z.add_0_l in *. assert (grid (2 * e) (cn_area2 st) 0) as A by (rewrite Ea; apply grid_f0).
  assert (small5 (2 ^ 53) (line2x zs) (line2y zs) (line_len zs) (dotx zs) (doty zs)) as Sm' by (unfold small5, small3 in *; lia).
  assert (0 <= line_len zs) as LL0.
  { unfold line_len. clear. induction zs as [|a [|b l] IH]; [cbn; lia..|]. cbn [steps] in *. unfold step_len at 1. lia. }
  destruct (Z.eq_dec (line_len zs) 0) as [E0|N0].
  - rewrite E0 in L, Sm'. unfold dotx, doty, dot in L, Sm'. rewrite E0 in L, Sm'. change (0 =? 0) with true in L, Sm'. cbv iota in L, Sm'.
    destruct (centroid_of_dots e st _ _ _ _ _ He A L Sm') as (c & -> & Rx & Ry & _); [lia|]. exists c. split; [reflexivity|]. split; [lia|]. intros _.
    rewrite !Z.mul_1_l in *. unfold Rdiv in Rx, Ry. rewrite Rinv_1, Rmult_1_r in Rx, Ry. auto.
  - destruct (centroid_of_lin e st _ _ _ _ _ _ He A L Sm') as (c & -> & Rx & Ry & _); [lia|]. exists c. split; [reflexivity|]. split; [auto|lia].
Qed.
(** A line string without points panics, in both overflow modes. *)
Theorem C69_line_empty_panics : forall hypot i l, lpts l = [] -> centroid_of_line hypot i l = Panic.
Proof. intros hypot i l E. unfold centroid_of_line, cn_of_line, ln_coordinates, seq_to_array. fold (lpts l). now rewrite E. Qed.

(** ** When it returns *)
Definition poly_full (p : GPoly) : Prop := spts p <> [] /\ Forall (fun h => h <> []) (hpts p).
Lemma foldM_holes_ok hypot i hs : i32_arith i -> Forall (fun h => h <> []) hs -> forall st b, cn_base st = Some b -> 0 <= cn_count st -> cn_count st + Z.of_nat (length hs) <= 2147483647 ->
  exists st', foldM (add_hole hypot i) hs st = Ok st' /\ 0 <= cn_count st' <= cn_count st + Z.of_nat (length hs).
Proof.
  intros I F. induction F as [|h hs Nh F IH]; intros st b Bs C0 C1.
  - exists st. split; [reflexivity|]. lia.
  - cbn [foldM length] in *. rewrite Nat2Z.inj_succ in *. destruct (C46_vec_returns h Nh) as (w & Ew). rewrite (add_hole_eq hypot i st b h w Ew Nh Bs).
    destruct (tri_fold_keeps b h w st) as (K1 & _ & _ & K4 & _).
    destruct (add_lines_ok hypot i (tri_fold st b h w) h I Nh) as (st1 & E1 & B1 & _ & _ & C2); [rewrite K4; lia|]. rewrite E1. cbn [bind]. rewrite K4 in C2.
    destruct (IH st1 b) as (st2 & E2 & C3); [now rewrite B1, K1|lia|lia|]. exists st2. split; [exact E2|]. lia.
Qed.
Lemma add_polygon_ok hypot i p : i32_arith i -> poly_full p -> forall st, 0 <= cn_count st -> cn_count st + Z.of_nat (S (length (hpts p))) <= 2147483647 ->
  exists st', add_polygon hypot i st p = Ok st' /\ 0 <= cn_count st' <= cn_count st + Z.of_nat (S (length (hpts p))).
Proof.
  intros I (Ns & F) st C0 C1. rewrite add_polygon_fold. rewrite Nat2Z.inj_succ in *. destruct (C46_vec_returns _ Ns) as (w & Ew). destruct (spts p) as [|c t]; [easy|].
  rewrite (add_shell_eq hypot i st c t w Ew). destruct (tri_fold_keeps c (c :: t) (negb w) (set_area_base_point st c)) as (K1 & _ & _ & K4 & _).
  destruct (add_lines_ok hypot i (tri_fold (set_area_base_point st c) c (c :: t) (negb w)) (c :: t) I Ns) as (st1 & E1 & B1 & _ & _ & C2).
  { rewrite K4. cbn [cn_count set_area_base_point]. lia. }
  rewrite E1. cbn [bind]. rewrite K4 in C2. cbn [cn_count set_area_base_point] in C2.
  destruct (foldM_holes_ok hypot i (hpts p) I F st1 c) as (st2 & E2 & C3); [rewrite B1, K1; cbn; now rewrite from_coordinate_id|lia|lia|].
  exists st2. split; [exact E2|]. lia.
Qed.
Lemma add_hole_nil hypot i st : add_hole hypot i st [] = Panic.
Proof. reflexivity. Qed.
Lemma add_shell_nil hypot i st : add_shell hypot i st [] = Panic.
Proof. reflexivity. Qed.
Lemma foldM_panic {A T} (f : T -> A -> res T) l s : Exists (fun x => forall s, f s x = Panic) l -> foldM f l s = Panic.
Proof.
  intros H. revert s. induction H as [x l H|x l H IH]; intros s; cbn [foldM].
  - now rewrite H.
  - destruct (f s x); [apply IH|reflexivity].
Qed.
Lemma add_polygon_panics hypot i p : ~ poly_full p -> forall st, add_polygon hypot i st p = Panic.
Proof.
  intros N st. rewrite add_polygon_fold. destruct (spts p) as [|c t] eqn:E; [reflexivity|].
  destruct (add_shell hypot i st (c :: t)) as [st'|]; [|reflexivity]. cbn [bind]. apply foldM_panic.
  destruct (Forall_Exists_dec (fun h : list Coordinate => h <> [])) with (l := hpts p) as [F|Ex].
  - intros []; [right; easy|now left].
  - exfalso. apply N. split; [now rewrite E|exact F].
  - apply Exists_exists in Ex. destruct Ex as (h & Ih & Nh). apply Exists_exists. exists h. split; [exact Ih|]. intros s.
    destruct h; [reflexivity|]. exfalso. now apply Nh.
Qed.
Lemma point_from_internal_ok pm c : exists q, point_from_internal pm c = Ok q /\ ppts q = [match pm with Some m => make_precise_coordinate m c | None => c end].
Proof. unfold point_from_internal. eexists. split; [apply create_point_id|reflexivity]. Qed.
Lemma pg_is_empty_spec p : pg_is_empty p = true <-> spts p = [].
Proof. unfold pg_is_empty, rg_is_empty, seq_size. fold (rpts (pg_shell p)). fold (spts p). destruct (spts p); cbn; split; easy. Qed.
(** A polygon without shell points gives the empty point; one whose rings all have
    points gives an answer; a hole without points panics. *)
Theorem C69_polygon_returns : forall hypot i p, i32_arith i -> Z.of_nat (S (length (hpts p))) <= 2147483647 ->
  (spts p = [] -> pg_centroid hypot i p = Ok pt_default) /\
  (poly_full p -> exists q, pg_centroid hypot i p = Ok q) /\
  (spts p <> [] -> In [] (hpts p) -> pg_centroid hypot i p = Panic).
Proof.
  intros hypot i p I B. unfold pg_centroid. repeat split.
  - intros E. now rewrite (proj2 (pg_is_empty_spec p) E).
  - intros F. destruct (pg_is_empty p) eqn:E; [eauto|]. unfold centroid_of_polygon, cn_of_polygon.
    destruct (add_polygon_ok hypot i p I F cn_default) as (st & -> & _); [cbn; lia|cbn [cn_count cn_default]; lia|]. cbn [bind].
    destruct (cn_centroid st) as [c|]; [|eauto]. destruct (point_from_internal_ok (pg_pm p) c) as (q & -> & _). eauto.
  - intros N H. destruct (pg_is_empty p) eqn:E; [apply pg_is_empty_spec in E; easy|]. unfold centroid_of_polygon, cn_of_polygon.
    rewrite add_polygon_panics; [reflexivity|]. intros (_ & F). rewrite Forall_forall in F. now apply (F [] H).
Qed.
(** A multi-polygon: the empty point when no polygon has points, an answer when each
    ring of each polygon has points, and otherwise a panic. *)
Definition all_rings (m : GMPoly) : list (list Coordinate) := concat (map (fun p => spts p :: hpts p) (mg_polys m)).
Theorem C69_multi_polygon_returns : forall hypot i m, i32_arith i -> Z.of_nat (length (all_rings m)) <= 2147483647 ->
  (Forall (fun p => spts p = []) (mg_polys m) -> mg_centroid hypot i m = Ok pt_default) /\
  (Forall (fun h => h <> []) (all_rings m) -> exists q, mg_centroid hypot i m = Ok q) /\
  (Exists (fun p => spts p <> []) (mg_polys m) -> In [] (all_rings m) -> mg_centroid hypot i m = Panic).
Proof.
  intros hypot i m I B. unfold mg_centroid. destruct (C77_polygon_access m) as ((b & Eb & Sb) & _). rewrite Eb. cbn [bind].
  unfold centroid_of_multi_polygon. rewrite multi_fold. unfold all_rings in *. repeat split.
  - intros F. now rewrite (proj2 Sb F).
  - intros F. destruct b; [eauto|].
    assert (forall ps st, Forall (fun h => h <> []) (concat (map (fun p => spts p :: hpts p) ps)) -> 0 <= cn_count st ->
      cn_count st + Z.of_nat (length (concat (map (fun p => spts p :: hpts p) ps))) <= 2147483647 -> exists st', foldM (add_polygon hypot i) ps st = Ok st') as G.
    { clear - I. induction ps as [|p ps IH]; intros st F C0 C1; cbn [foldM]; [eauto|]. cbn [map concat] in F, C1. apply Forall_app in F. destruct F as (F1 & F2).
      rewrite app_length in C1. change (length (spts p :: hpts p)) with (S (length (hpts p))) in C1. inversion F1; subst.
      destruct (add_polygon_ok hypot i p I (conj H1 H2) st C0) as (st1 & -> & C2); [lia|]. cbn [bind]. apply IH; [exact F2|lia|lia]. }
    destruct (G (mg_polys m) cn_default F) as (st & ->); [cbn; lia|cbn [cn_count cn_default]; lia|]. cbn [bind].
    destruct (cn_centroid st) as [c|]; [|eauto]. destruct (point_from_internal_ok (mg_pm m) c) as (q & -> & _). eauto.
  - intros Ex H. destruct b.
    + exfalso. pose proof (proj1 Sb eq_refl) as F. rewrite Forall_forall in F. apply Exists_exists in Ex. destruct Ex as (p & Ip & Np). now apply Np, F.
    + rewrite foldM_panic; [reflexivity|]. apply in_concat in H. destruct H as (rs & Irs & H). apply in_map_iff in Irs. destruct Irs as (p & <- & Ip).
      apply Exists_exists. exists p. split; [exact Ip|]. apply add_polygon_panics. intros (F1 & F2). destruct H as [H|H]; [easy|]. rewrite Forall_forall in F2. now apply (F2 [] H).
Qed.
(** So a polygon with a hole without points has no centroid: never panicking is refuted. *)
Theorem C69_never_panics_refuted : ~ (forall hypot p, spts p <> [] -> exists q, pg_centroid hypot i32_chk p = Ok q).
Proof.
  intros H. set (p := mkPoly (mkRg (seq_of unit_square) None None) [mkRg (seq_of []) None None] None None).
  destruct (H (fun x _ => fabs x) p) as (q & E); [easy|].
  destruct (C69_polygon_returns (fun x _ => fabs x) i32_chk p) as (_ & _ & P); [now left|cbn; lia|].
  rewrite P in E; [discriminate|easy|now left].
Qed.

(** ** Areas *)
Definition flat_ring (e k : Z) (zs : list (Z * Z)) (cs : list Coordinate) : Prop := closed_chain zs /\ on_grid e zs cs /\ within k zs.
(** The orientation test agrees with the area of the ring, which is not zero. *)
Definition well_turned (zs : list (Z * Z)) (cs : list Coordinate) : Prop :=
  area2 zs <> 0 /\ is_ccw_vec cs = Ok (Some (0 <? area2 zs)).
Lemma closed_ne e k zs cs : flat_ring e k zs cs -> cs <> [].
Proof. intros ((a & m & ->) & G & _) ->. inversion G. Qed.
Lemma centroid_quot s m a : s = 1 \/ s = -1 -> a <> 0 -> (IZR (s * m) / (3 * IZR (s * a)) = IZR m / (3 * IZR a))%R.
Proof.
  intros Hs N. apply not_0_IZR in N. rewrite !mult_IZR. assert (IZR s <> 0)%R as Ns by (apply not_0_IZR; lia).
  field. split; assumption.
Qed.
Definition flag (zs : list (Z * Z)) : bool * list (Z * Z) := (0 <? area2 zs, zs).
Definition flags (r : list (Z * Z) * list (list (Z * Z))) : (bool * list (Z * Z)) * list (bool * list (Z * Z)) := (flag (fst r), map flag (snd r)).
Lemma sg_flag zs : area2 zs <> 0 -> sg (0 <? area2 zs) = Z.sgn (area2 zs).
Proof. intros N. destruct (Z.ltb_spec 0 (area2 zs)); cbn [sg]; lia. Qed.
Lemma total_ext {A} (f g : A -> Z) l : Forall (fun x => f x = g x) l -> total f l = total g l.
Proof. induction 1 as [|x l H F IH]; [reflexivity|]. rewrite !total_cons. congruence. Qed.
Lemma hole_sum_flags f g hzs : Forall (fun zs => sg (0 <? area2 zs) * f zs = g zs) hzs -> hole_sum f (map flag hzs) = total g hzs.
Proof. induction 1 as [|zs l H F IH]; [reflexivity|]. unfold hole_sum in *. cbn [map]. rewrite !total_cons, IH. cbn [flag fst snd]. now rewrite H. Qed.
Lemma poly_sum_flags f g zs hzs : Forall (fun zs => sg (0 <? area2 zs) * f zs = g zs) (zs :: hzs) -> poly_sum f (flags (zs, hzs)) = - region g (zs, hzs).
Proof.
  intros F. inversion F as [|? ? H F']; subst. unfold poly_sum, region, flags. cbn [fst snd flag]. rewrite (hole_sum_flags f g hzs F').
  rewrite <- H. destruct (0 <? area2 zs); cbn [negb sg]; ring.
Qed.
Lemma points_flags hzs : points_of (map flag hzs) = sum_len hzs.
Proof. induction hzs as [|zs l IH]; [reflexivity|]. unfold points_of, sum_len in *. cbn [map]. rewrite !total_cons, IH. reflexivity. Qed.
Lemma ring_ok_flag e k zs cs : flat_ring e k zs cs -> well_turned zs cs -> ring_ok e k (flag zs) cs.
Proof. intros (Cl & G & W) (_ & E). repeat split; assumption. Qed.
Lemma well_sums zs hzs : Forall (fun zs => area2 zs <> 0) (zs :: hzs) ->
  poly_sum area2 (flags (zs, hzs)) = - region size2 (zs, hzs) /\ poly_sum moment6x (flags (zs, hzs)) = - region weight6x (zs, hzs) /\
  poly_sum moment6y (flags (zs, hzs)) = - region weight6y (zs, hzs).
Proof.
  intros F. split; [|split]; apply poly_sum_flags; (eapply Forall_impl; [|exact F]); intros l N; cbv beta in N; rewrite (sg_flag l N);
    [unfold size2; destruct (Z.sgn_spec (area2 l)) as [(? & ->)|[(? & ->)|(? & ->)]]; lia|reflexivity|reflexivity].
Qed.
Lemma neg_quot m a e : a <> 0 -> (IZR (- m) / (3 * IZR (- a)) * bp e = IZR m / (3 * IZR a) * bp e)%R.
Proof. intros N. f_equal. replace (- m) with (-1 * m) by ring. replace (- a) with (-1 * a) by ring. apply centroid_quot; [now right|exact N]. Qed.

(** The centroid of a polygon: the area of the shell less the areas of the holes,
    each weighted with its own centroid, within two roundings. *)
Theorem C69_polygon : forall hypot i e k p zs hzs, i32_arith i -> -300 <= e <= 300 -> 1 <= k ->
  flat_ring e k zs (spts p) -> Forall2 (flat_ring e k) hzs (hpts p) -> well_turned zs (spts p) -> Forall2 well_turned hzs (hpts p) ->
  sum_len (zs :: hzs) * (24 * (k * k * k)) <= 2 ^ 53 -> Z.of_nat (length (zs :: hzs)) <= 2147483647 -> region size2 (zs, hzs) <> 0 ->
  exists c, centroid_of_polygon hypot i p = Ok (Some c) /\
    near2 (cx c) (IZR (region weight6x (zs, hzs)) / (3 * IZR (region size2 (zs, hzs))) * bp e) /\
    near2 (cy c) (IZR (region weight6y (zs, hzs)) / (3 * IZR (region size2 (zs, hzs))) * bp e) /\ cz c = fnan /\ cm c = fnan.
Proof.
  intros hypot i e k p zs hzs I He Hk Fs Fh Ws Wh B Bn Na.
  assert (poly_ok e k (flags (zs, hzs)) p) as Ok_.
  { split; [now apply ring_ok_flag|]. cbn [flags snd]. clear - Fh Wh. revert Fh Wh. generalize (hpts p). induction hzs as [|z hzs IH]; intros l F W; inversion F; subst; [constructor|].
    inversion W; subst. cbn [map]. constructor; [now apply ring_ok_flag|]. now apply IH. }
  assert (Forall (fun zs => area2 zs <> 0) (zs :: hzs)) as Nz.
  { constructor; [apply Ws|]. clear - Wh. induction Wh as [|? ? ? ? (N & _) _ IH]; constructor; assumption. }
  destruct (well_sums zs hzs Nz) as (Sa & Sx & Sy).
  assert (poly_points (flags (zs, hzs)) = sum_len (zs :: hzs)) as Pp.
  { unfold poly_points. cbn [flags fst snd flag]. rewrite points_flags. reflexivity. }
  destruct (poly_acc hypot i e k (flags (zs, hzs)) p I He Hk Ok_ cn_default 0 0 0 0) as (st & E & A & Sm & _).
  - repeat split; apply grid_f0.
  - unfold small3. lia.
  - rewrite Pp, Z.add_0_l. exact B.
  - cbn. lia.
  - cbn [cn_count cn_default]. unfold poly_rings. cbn [flags snd]. rewrite map_length. cbn [length] in Bn. lia.
  - rewrite !Z.add_0_l, Pp, Sa, Sx, Sy in *. unfold centroid_of_polygon, cn_of_polygon. rewrite E. cbn [bind].
    destruct (centroid_of_acc e st _ _ _ He A) as (c & -> & Nx & Ny & Z_ & M_); [unfold small3 in *; lia|lia|].
    rewrite neg_quot in Nx, Ny by exact Na. exists c. auto.
Qed.
(** A polygon with one ring: Green's formula, whatever the direction test says, so
    the result depends neither on the direction nor on the starting point. *)
Theorem C69_ring : forall hypot i e k p zs, i32_arith i -> -300 <= e <= 300 -> 1 <= k -> flat_ring e k zs (spts p) -> hpts p = [] ->
  Z.of_nat (length zs) * (24 * (k * k * k)) <= 2 ^ 53 -> area2 zs <> 0 ->
  exists c, centroid_of_polygon hypot i p = Ok (Some c) /\
    near2 (cx c) (IZR (moment6x zs) / (3 * IZR (area2 zs)) * bp e) /\ near2 (cy c) (IZR (moment6y zs) / (3 * IZR (area2 zs)) * bp e).
Proof.
  intros hypot i e k p zs I He Hk Fs Eh B Na. destruct (C46_vec_returns _ (closed_ne _ _ _ _ Fs)) as (w & Ew).
  assert (poly_ok e k ((w, zs), []) p) as Ok_ by (split; [destruct Fs as (? & ? & ?); repeat split; assumption|rewrite Eh; constructor]).
  destruct (poly_acc hypot i e k _ p I He Hk Ok_ cn_default 0 0 0 0) as (st & E & A & Sm & _).
  - repeat split; apply grid_f0.
  - unfold small3. lia.
  - unfold poly_points, points_of, total. cbn [fst snd map fold_right]. lia.
  - cbn. lia.
  - cbn. lia.
  - unfold poly_points, poly_sum, hole_sum, points_of, total in A, Sm. cbn [fst snd map fold_right] in A, Sm. rewrite !Z.add_0_r, !Z.add_0_l in A, Sm.
    unfold centroid_of_polygon, cn_of_polygon. rewrite E. cbn [bind].
    assert (sg (negb w) = 1 \/ sg (negb w) = -1) as Sg by (destruct w; cbn; auto).
    destruct (centroid_of_acc e st _ _ _ He A) as (c & -> & Nx & Ny & _); [unfold small3 in *; lia|destruct Sg as [-> | ->]; lia|].
    rewrite !(centroid_quot _ _ _ Sg Na) in *. exists c. auto.
Qed.
(** The same ring from another start or backwards: Green's formulas agree. *)
Lemma steps_app f l a m : steps f (l ++ a :: m) = steps f (l ++ [a]) + steps f (a :: m).
Proof.
  induction l as [|x l IH]; [cbn [app]; change (steps f [a]) with 0; ring|]. destruct l as [|y l].
  - cbn [app]. change (steps f (x :: a :: m)) with (f x a + steps f (a :: m)). change (steps f [x; a]) with (f x a + 0). ring.
  - change (steps f ((x :: y :: l) ++ a :: m)) with (f x y + steps f ((y :: l) ++ a :: m)). rewrite IH.
    change (steps f ((x :: y :: l) ++ [a])) with (f x y + steps f ((y :: l) ++ [a])). ring.
Qed.
Theorem C69_formula_invariant : forall a l b m,
  let r := (a :: l) ++ (b :: m) ++ [a] in
  let r' := (b :: m) ++ (a :: l) ++ [b] in
  area2 r' = area2 r /\ moment6x r' = moment6x r /\ moment6y r' = moment6y r /\
  area2 (rev r) = - area2 r /\ moment6x (rev r) = - moment6x r /\ moment6y (rev r) = - moment6y r.
Proof.
  intros a l b m r r'.
  assert (forall f, steps f r' = steps f r) as Rot.
  { intros f. unfold r, r'. cbn [app]. change (b :: m ++ a :: l ++ [b]) with ((b :: m) ++ a :: (l ++ [b])). change (a :: l ++ b :: m ++ [a]) with ((a :: l) ++ b :: (m ++ [a])).
    rewrite (steps_app f (b :: m)), (steps_app f (a :: l)). cbn [app]. ring. }
  assert (forall f, (forall p q, f q p = - f p q) -> forall l, steps f (rev l) = - steps f l) as Rev.
  { clear. intros f Anti. induction l as [|x l IH]; [reflexivity|]. destruct l as [|y l]; [reflexivity|].
    change (rev (x :: y :: l)) with ((rev l ++ [y]) ++ [x]). rewrite <- app_assoc. cbn [app]. rewrite steps_app. change (rev l ++ [y]) with (rev (y :: l)). rewrite IH.
    change (steps f (x :: y :: l)) with (f x y + steps f (y :: l)). change (steps f [y; x]) with (f y x + 0). rewrite (Anti x y). ring. }
  unfold area2, moment6x, moment6y. rewrite !Rot. repeat split; try reflexivity; apply Rev; intros; unfold cross; ring.
Qed.
(** Area by Green's formula is the (negated) trapezoid sum of C47. *)
Theorem C69_formula_area : forall zs, closed_chain zs -> area2 zs = - trapezoids zs.
Proof.
  assert (forall l a, trapezoids (a :: l) = - area2 (a :: l) + fst (last (a :: l) a) * snd (last (a :: l) a) - fst a * snd a) as G.
  { induction l as [|b l IH]; intros [x y]; [cbn; ring|]. destruct b as [x' y'].
    change (trapezoids ((x, y) :: (x', y') :: l)) with ((x' - x) * (y + y') + trapezoids ((x', y') :: l)).
    change (area2 ((x, y) :: (x', y') :: l)) with (cross (x, y) (x', y') + area2 ((x', y') :: l)). rewrite IH.
    change (last ((x, y) :: (x', y') :: l) (x, y)) with (last ((x', y') :: l) (x, y)). rewrite (last_indep l (x', y') (x', y') (x, y)). unfold cross. cbn [fst snd]. ring. }
  intros zs (a & m & ->). rewrite G. replace (last (a :: m ++ [a]) a) with a by (rewrite app_comm_cons, last_last; reflexivity). ring.
Qed.
(** A triangle: the mean of its corners. A box: its middle. *)
Theorem C69_triangle : forall hypot i e k p za zb zc a b c, i32_arith i -> -300 <= e <= 300 -> 1 <= k -> 96 * (k * k * k) <= 2 ^ 53 ->
  spts p = [a; b; c; a] -> hpts p = [] -> on_grid e [za; zb; zc] [a; b; c] -> within k [za; zb; zc] -> det_pts a b c <> 0%R ->
  exists r, centroid_of_polygon hypot i p = Ok (Some r) /\ near2 (cx r) ((R_of (cx a) + R_of (cx b) + R_of (cx c)) / 3) /\ near2 (cy r) ((R_of (cy a) + R_of (cy b) + R_of (cy c)) / 3).
Proof.
  intros hypot i e k p za zb zc a b c I He Hk B Es Eh G W Nd.
  inversion G as [|? ? ? ? [Ga1 Ga2] G1]; subst. inversion G1 as [|? ? ? ? [Gb1 Gb2] G2]; subst. inversion G2 as [|? ? ? ? [Gc1 Gc2] _]; subst.
  inversion W as [|? ? Wa W1]; subst. inversion W1 as [|? ? Wb W2]; subst. inversion W2 as [|? ? Wc _]; subst.
  assert (area2 [za; zb; zc; za] <> 0) as Na.
  { intros E0. apply Nd. unfold det_pts, det3. rewrite (proj2 Ga1), (proj2 Ga2), (proj2 Gb1), (proj2 Gb2), (proj2 Gc1), (proj2 Gc2).
    apply (f_equal IZR) in E0. unfold area2, cross in E0. cbn [steps] in E0. rewrite ?plus_IZR, ?minus_IZR, ?mult_IZR in E0. 
    apply Rmult_eq_compat_r with (r := (bp e * bp e)%R) in E0. rewrite Rmult_0_l in E0. rewrite <- E0. ring. }
  destruct (C69_ring hypot i e k p [za; zb; zc; za] I He Hk) as (r & Er & Nx & Ny); try assumption.
  - split; [exists za, [zb; zc]; reflexivity|]. split.
    + rewrite Es. repeat (apply Forall2_cons; [split; assumption|]). apply Forall2_nil.
    + repeat (apply Forall_cons; [assumption|]). apply Forall_nil.
  - cbn [length]. lia.
  - exists r. split; [exact Er|]. rewrite (proj2 Ga1), (proj2 Ga2), (proj2 Gb1), (proj2 Gb2), (proj2 Gc1), (proj2 Gc2).
    apply not_0_IZR in Na. 
    assert (moment6x [za; zb; zc; za] = area2 [za; zb; zc; za] * (fst za + fst zb + fst zc)) as Mx by (unfold moment6x, area2, cross; cbn [steps]; ring).
    assert (moment6y [za; zb; zc; za] = area2 [za; zb; zc; za] * (snd za + snd zb + snd zc)) as My by (unfold moment6y, area2, cross; cbn [steps]; ring).
    split.
    + replace ((IZR (fst za) * bp e + IZR (fst zb) * bp e + IZR (fst zc) * bp e) / 3)%R with (IZR (moment6x [za; zb; zc; za]) / (3 * IZR (area2 [za; zb; zc; za])) * bp e)%R; [exact Nx|].
      rewrite Mx, mult_IZR, !plus_IZR. field. exact Na.
    + replace ((IZR (snd za) * bp e + IZR (snd zb) * bp e + IZR (snd zc) * bp e) / 3)%R with (IZR (moment6y [za; zb; zc; za]) / (3 * IZR (area2 [za; zb; zc; za])) * bp e)%R; [exact Ny|].
      rewrite My, mult_IZR, !plus_IZR. field. exact Na.
Qed.
Theorem C69_box : forall hypot i e k p a b c d x1 y1 x2 y2, i32_arith i -> -300 <= e <= 300 -> 1 <= k -> 120 * (k * k * k) <= 2 ^ 53 ->
  spts p = [a; b; c; d; a] -> hpts p = [] -> on_grid e [(x1, y1); (x2, y1); (x2, y2); (x1, y2)] [a; b; c; d] -> within k [(x1, y1); (x2, y2)] -> x1 <> x2 -> y1 <> y2 ->
  exists r, centroid_of_polygon hypot i p = Ok (Some r) /\ near2 (cx r) ((R_of (cx a) + R_of (cx c)) / 2) /\ near2 (cy r) ((R_of (cy a) + R_of (cy c)) / 2).
Proof.
  intros hypot i e k p a b c d x1 y1 x2 y2 I He Hk B Es Eh G W Nx0 Ny0.
  inversion G as [|? ? ? ? [Ga1 Ga2] G1]; subst. inversion G1 as [|? ? ? ? [Gb1 Gb2] G2]; subst. inversion G2 as [|? ? ? ? [Gc1 Gc2] G3]; subst. inversion G3 as [|? ? ? ? [Gd1 Gd2] _]; subst.
  inversion W as [|? ? [Wa1 Wa2] W1]; subst. inversion W1 as [|? ? [Wb1 Wb2] _]; subst. cbn [fst snd] in *.
  set (zs := [(x1, y1); (x2, y1); (x2, y2); (x1, y2); (x1, y1)]).
  assert (area2 zs = 2 * ((x2 - x1) * (y2 - y1))) as A2 by (unfold zs, area2, cross; cbn [steps fst snd]; ring).
  assert (area2 zs <> 0) as Na by (rewrite A2; nia).
  destruct (C69_ring hypot i e k p zs I He Hk) as (r & Er & Nx & Ny); try assumption.
  - split; [exists (x1, y1), [(x2, y1); (x2, y2); (x1, y2)]; reflexivity|]. split.
    + rewrite Es. repeat (apply Forall2_cons; [split; assumption|]). apply Forall2_nil.
    + repeat (apply Forall_cons; [split; assumption|]). apply Forall_nil.
  - cbn [zs length]. lia.
  - exists r. split; [exact Er|]. rewrite (proj2 Ga1), (proj2 Ga2), (proj2 Gc1), (proj2 Gc2). apply not_0_IZR in Na.
    assert (2 * moment6x zs = area2 zs * (3 * (x1 + x2))) as Mx by (unfold zs, moment6x, area2, cross; cbn [steps fst snd]; ring).
    assert (2 * moment6y zs = area2 zs * (3 * (y1 + y2))) as My by (unfold zs, moment6y, area2, cross; cbn [steps fst snd]; ring).
    apply (f_equal IZR) in Mx, My. rewrite !mult_IZR, plus_IZR in Mx, My.
    assert (IZR (moment6x zs) = IZR (area2 zs) * (3 * (IZR x1 + IZR x2)) / 2)%R as Ex by lra.
    assert (IZR (moment6y zs) = IZR (area2 zs) * (3 * (IZR y1 + IZR y2)) / 2)%R as Ey by lra.
    rewrite Ex in Nx. rewrite Ey in Ny. clear Ex Ey Mx My.
    replace (IZR (area2 zs) * (3 * (IZR x1 + IZR x2)) / 2 / (3 * IZR (area2 zs)) * bp e)%R with ((IZR x1 * bp e + IZR x2 * bp e) / 2)%R in Nx by (field; exact Na).
    replace (IZR (area2 zs) * (3 * (IZR y1 + IZR y2)) / 2 / (3 * IZR (area2 zs)) * bp e)%R with ((IZR y1 * bp e + IZR y2 * bp e) / 2)%R in Ny by (field; exact Na).
    split; assumption.
Qed.
(** A multi-polygon: the same with the areas of the polygons added up. *)
Theorem C69_multi_polygon : forall hypot i e k m rs, i32_arith i -> -300 <= e <= 300 -> 1 <= k ->
  Forall2 (fun r p => flat_ring e k (fst r) (spts p) /\ Forall2 (flat_ring e k) (snd r) (hpts p) /\ well_turned (fst r) (spts p) /\ Forall2 well_turned (snd r) (hpts p)) rs (mg_polys m) ->
  total (fun r => sum_len (fst r :: snd r)) rs * (24 * (k * k * k)) <= 2 ^ 53 -> total (fun r => Z.of_nat (length (fst r :: snd r))) rs <= 2147483647 -> total (region size2) rs <> 0 ->
  exists c, centroid_of_multi_polygon hypot i m = Ok (Some c) /\
    near2 (cx c) (IZR (total (region weight6x) rs) / (3 * IZR (total (region size2) rs)) * bp e) /\
    near2 (cy c) (IZR (total (region weight6y) rs) / (3 * IZR (total (region size2) rs)) * bp e).
Proof.
  intros hypot i e k m rs I He Hk F B Bn Na.
  assert (Forall2 (poly_ok e k) (map flags rs) (mg_polys m) /\ total poly_points (map flags rs) = total (fun r => sum_len (fst r :: snd r)) rs /\
    total poly_rings (map flags rs) = total (fun r => Z.of_nat (length (fst r :: snd r))) rs /\
    total (poly_sum area2) (map flags rs) = - total (region size2) rs /\ total (poly_sum moment6x) (map flags rs) = - total (region weight6x) rs /\
    total (poly_sum moment6y) (map flags rs) = - total (region weight6y) rs) as (Ok_ & Pp & Pr & Sa & Sx & Sy).
  { clear - F. induction F as [|[zs hzs] p rs ps (Fs & Fh & Ws & Wh) F (I1 & I2 & I3 & I4 & I5 & I6)]; [repeat split; constructor|]. cbn [fst snd] in *.
    cbn [map]. rewrite !total_cons, I2, I3, I4, I5, I6.
    assert (Forall (fun zs => area2 zs <> 0) (zs :: hzs)) as Nz.
    { constructor; [apply Ws|]. clear - Wh. induction Wh as [|? ? ? ? (N & _) _ IH]; constructor; assumption. }
    destruct (well_sums zs hzs Nz) as (Sa & Sx & Sy). rewrite Sa, Sx, Sy. split.
    - constructor; [|exact I1]. split; [now apply ring_ok_flag|]. cbn [flags snd]. clear - Fh Wh. revert Fh Wh. generalize (hpts p). induction hzs as [|z hzs IH]; intros l F W; inversion F; subst; [constructor|].
      inversion W; subst. cbn [map]. constructor; [now apply ring_ok_flag|]. now apply IH.
    - repeat split; try ring.
      + unfold poly_points. cbn [flags fst snd flag]. rewrite points_flags. reflexivity.
      + unfold poly_rings. cbn [flags fst snd flag]. rewrite map_length. cbn [fst snd length]. lia. }
  destruct (polys_acc hypot i e k (map flags rs) (mg_polys m) I He Hk Ok_ cn_default 0 0 0 0) as (st & E & A & Sm).
  - repeat split; apply grid_f0.
  - unfold small3. lia.
  - rewrite Pp, Z.add_0_l. exact B.
  - cbn. lia.
  - cbn [cn_count cn_default]. rewrite Pr. lia.
  - rewrite !Z.add_0_l, Pp, Sa, Sx, Sy in *. unfold centroid_of_multi_polygon. rewrite multi_fold, E. cbn [bind].
    destruct (centroid_of_acc e st _ _ _ He A) as (c & -> & Nx & Ny & _); [unfold small3 in *; lia|lia|].
    rewrite neg_quot in Nx, Ny by exact Na. exists c. auto.
Qed.
(** A polygon whose rings have no area: lines count, and when they have no length
    either, the first points of the rings. *)
Theorem C69_degenerate : forall hypot i e k p zs hzs, i32_arith i -> hypot_axis hypot -> -300 <= e <= 300 -> 1 <= k ->
  flat_ring e k zs (spts p) -> Forall2 (flat_ring e k) hzs (hpts p) -> Forall (fun l => rectilinear l /\ area2 l = 0) (zs :: hzs) ->
  let zss := zs :: hzs in
  sum_len zss * (24 * (k * k * k)) <= 2 ^ 53 -> Z.of_nat (length zss) <= 2147483647 ->
  exists c, centroid_of_polygon hypot i p = Ok (Some c) /\
    (0 < total line_len zss -> rounded (cx c) (IZR (total line2x zss) / (2 * IZR (total line_len zss)) * bp e) /\ rounded (cy c) (IZR (total line2y zss) / (2 * IZR (total line_len zss)) * bp e)) /\
    (total line_len zss = 0 -> rounded (cx c) (IZR (total (fun l => fst (hd (0, 0) l)) zss) / IZR (Z.of_nat (length zss)) * bp e) /\
      rounded (cy c) (IZR (total (fun l => snd (hd (0, 0) l)) zss) / IZR (Z.of_nat (length zss)) * bp e)).
Proof.
  intros hypot i e k p zs hzs I Ha He Hk Fs Fh Fr zss B Bn.
  assert (k <= k * k) as K1 by nia. assert (k * k <= k * k * k) as K2 by nia.
  assert (forall zs cs, flat_ring e k zs cs -> exists b, ring_ok e k (b, zs) cs) as Flag.
  { intros zs' cs H. destruct (C46_vec_returns _ (closed_ne _ _ _ _ H)) as (w & Ew). exists w. destruct H as (? & ? & ?). repeat split; assumption. }
  assert (exists hs, map snd hs = hzs /\ Forall2 (ring_ok e k) hs (hpts p)) as (hs & Ehs & Fhs).
  { clear - Fh Flag. induction Fh as [|z c hz hc H F (hs & E & IH)]; [exists []; split; [reflexivity|constructor]|].
    destruct (Flag _ _ H) as (b & Hb). exists ((b, z) :: hs). cbn [map snd]. rewrite E. split; [reflexivity|]. now constructor. }
  destruct (Flag _ _ Fs) as (b & Hb).
  inversion Fr as [|? ? (Rs & A0) Fr']; subst.
  assert (hole_sum area2 hs = 0 /\ points_of hs = sum_len (map snd hs)) as (Hs0 & Hp).
  { clear - Fr'. induction hs as [|r hs IH]; [split; reflexivity|]. cbn [map] in Fr'. inversion Fr' as [|? ? (_ & A0) F]; subst. destruct (IH F) as (I1 & I2).
    unfold hole_sum, points_of, sum_len in *. cbn [map]. rewrite !total_cons, I1, I2, A0. split; [ring|reflexivity]. }
  destruct (poly_acc hypot i e k ((b, zs), hs) p I He Hk (conj Hb Fhs) cn_default 0 0 0 0) as (st & E & (A & _) & _).
  { repeat split; apply grid_f0. } { unfold small3. lia. } { unfold poly_points. cbn [fst snd]. rewrite Hp. exact B. } { cbn. lia. }
  { cbn [cn_count cn_default]. unfold poly_rings. cbn [snd]. unfold zss in Bn. cbn [length] in Bn. rewrite map_length in Bn. lia. }
  rewrite Z.add_0_l in A. unfold poly_sum in A. cbn [fst snd] in A. rewrite A0, Hs0, Z.mul_0_r, Z.add_0_r in A.
  destruct (poly_lin hypot i e k zs (map snd hs) p I He Hk Ha) with (st := cn_default) (x := 0) (y := 0) (l := 0) (n := 0) (px := 0) (py := 0) (c := 0) as (st' & E' & L & Sm).
  { destruct Fs as ((a & m & ->) & ? & ?). repeat split; try assumption. discriminate. }
  { clear - Fh Fr'. revert Fr'. induction Fh as [|z c hz hc ((a & m & ->) & G & W) F IH]; intros Fr; constructor; inversion Fr as [|? ? (R1 & _) Fr1]; subst.
    - repeat split; try assumption. discriminate.
    - now apply IH. }
  { repeat split; apply grid_f0. } { unfold small5, small3. lia. } { fold zss. pose proof (sum_len_nonneg zss). nia. } { lia. } { fold zss. lia. }
  fold zss in L, Sm. rewrite !Z.add_0_l in *. rewrite E in E'. injection E' as <-.
  unfold centroid_of_polygon, cn_of_polygon. rewrite E. cbn [bind].
  assert (sum_len zss * (4 * (k * k)) <= 2 ^ 53) as B4 by (pose proof (sum_len_nonneg zss); nia).
  assert (forall l, Forall (fun zs => 0 <= line_len zs) l) as LLs.
  { clear. intros l. apply Forall_forall. intros zs _. unfold line_len. induction zs as [|a [|b l'] IH]; [cbn; lia..|]. cbn [steps] in *. unfold step_len at 1. lia. }
  assert (forall l, 0 <= total line_len l) as LL0.
  { induction l as [|z l IH]; [apply Z.le_refl|]. rewrite total_cons. pose proof (LLs [z]) as H. inversion H; subst. lia. }
  destruct (Z.eq_dec (total line_len zss) 0) as [E0|N0].
  - assert (forall l, total line_len l = 0 -> total dot l = Z.of_nat (length l) /\ total dotx l = total (fun l => fst (hd (0, 0) l)) l /\ total doty l = total (fun l => snd (hd (0, 0) l)) l) as Dots.
    { clear - LLs LL0. induction l as [|z l IH]; [auto|]. rewrite !total_cons. intros H. pose proof (LL0 l). pose proof (LLs [z]) as Hz. inversion Hz; subst.
      destruct IH as (-> & -> & ->); [lia|]. unfold dotx, doty, dot. rewrite (proj2 (Z.eqb_eq (line_len z) 0)) by lia. cbn [length]. repeat split; lia. }
    destruct (Dots zss E0) as (D1 & D2 & D3). rewrite E0, D1, D2, D3 in *.
    destruct (centroid_of_dots e st _ _ _ _ _ He A L) as (c & -> & Rx & Ry & _); [unfold small5, small3 in *; lia|unfold zss in *; cbn [length] in *; lia|].
    exists c. split; [reflexivity|]. split; [lia|auto].
  - pose proof (LL0 zss). destruct (centroid_of_lin e st _ _ _ _ _ _ He A L) as (c & -> & Rx & Ry & _); [unfold small5, small3 in *; lia|lia|].
    exists c. split; [reflexivity|]. split; [auto|lia].
Qed.
(** The point returned by the polygon is that centroid, moved to the grid of its
    precision model when it has one. *)
Theorem C69_get_centroid : forall hypot i p c, spts p <> [] -> centroid_of_polygon hypot i p = Ok (Some c) ->
  exists q, pg_centroid hypot i p = Ok q /\
    ppts q = [mkC (match pg_pm p with Some m => make_precise m (cx c) | None => cx c end) (match pg_pm p with Some m => make_precise m (cy c) | None => cy c end) (cz c) (cm c)].
Proof.
  intros hypot i p c N E. unfold pg_centroid. destruct (pg_is_empty p) eqn:Em; [apply pg_is_empty_spec in Em; easy|]. rewrite E. cbn [bind].
  destruct (point_from_internal_ok (pg_pm p) c) as (q & -> & Eq). exists q. split; [reflexivity|]. rewrite Eq. destruct (pg_pm p) as [m|]; [|now destruct c].
  unfold make_precise_coordinate. destruct c as [x y z w]. unfold make_precise. destruct (pm_type m); cbn [pmt_eqb set_x set_y cx cy cz cm]; try reflexivity;
    destruct (fis_nan x), (fis_nan y); reflexivity.
Qed.
Theorem C69_multi_get_centroid : forall hypot i m c, Exists (fun p => spts p <> []) (mg_polys m) -> centroid_of_multi_polygon hypot i m = Ok (Some c) ->
  exists q, mg_centroid hypot i m = Ok q /\
    ppts q = [mkC (match mg_pm m with Some pm => make_precise pm (cx c) | None => cx c end) (match mg_pm m with Some pm => make_precise pm (cy c) | None => cy c end) (cz c) (cm c)].
Proof.
  intros hypot i m c Ex E. unfold mg_centroid. destruct (C77_polygon_access m) as ((b & Eb & Sb) & _). rewrite Eb. cbn [bind].
  destruct b.
  { exfalso. pose proof (proj1 Sb eq_refl) as F. rewrite Forall_forall in F. apply Exists_exists in Ex. destruct Ex as (p & Ip & Np). now apply Np, F. }
  rewrite E. cbn [bind].
  destruct (point_from_internal_ok (mg_pm m) c) as (q & -> & Eq). exists q. split; [reflexivity|]. rewrite Eq. destruct (mg_pm m) as [pm|]; [|now destruct c].
  unfold make_precise_coordinate. destruct c as [x y z w]. unfold make_precise. destruct (pm_type pm); cbn [pmt_eqb set_x set_y cx cy cz cm]; try reflexivity;
    destruct (fis_nan x), (fis_nan y); reflexivity.
Qed.

(** A polygon built with a precision model answers the centroid of the same polygon built
    without one, moved to that model's grid. *)
Definition to_grid (m : PM) (c : Coordinate) : Coordinate := mkC (make_precise m (cx c)) (make_precise m (cy c)) (cz c) (cm c).
Theorem C69_built_centroid : forall hypot i shell holes m p c, rpts shell <> [] -> pg_new shell holes = Ok p -> centroid_of_polygon hypot i p = Ok (Some c) ->
  (exists q, bind (pg_new shell holes) (pg_centroid hypot i) = Ok q /\ ppts q = [c]) /\
  (exists q, bind (pg_new_pm shell holes (Some m)) (pg_centroid hypot i) = Ok q /\ ppts q = [to_grid m c]) /\
  (holes = [] -> (exists q, bind (pg_new_shell shell) (pg_centroid hypot i) = Ok q /\ ppts q = [c]) /\
    (exists q, bind (pg_new_shell_pm shell m) (pg_centroid hypot i) = Ok q /\ ppts q = [to_grid m c])).
Proof.
  intros hypot i shell holes m p c N Ep Ec.
  assert (forall pm, exists q, bind (pg_new_pm shell holes pm) (pg_centroid hypot i) = Ok q /\
    ppts q = [match pm with Some m => to_grid m c | None => c end]) as K.
  { intros pm. unfold pg_new, pg_new_pm in *. rewrite rg_copy_id in *. cbn [bind] in *. injection Ep as <-.
    destruct (C69_get_centroid hypot i (mkPoly (mkRg (rg_seq shell) None None) holes pm None) c) as (q & E & P); [exact N|exact Ec|].
    exists q. split; [exact E|]. rewrite P. cbn [pg_pm]. destruct pm; [reflexivity|]. now destruct c. }
  split; [exact (K None)|]. split; [exact (K (Some m))|]. intros ->. split; [exact (K None)|exact (K (Some m))].
Qed.
Theorem C69_multi_built_centroid : forall hypot i ps m c, Exists (fun p => spts p <> []) ps -> centroid_of_multi_polygon hypot i (mg_new ps None) = Ok (Some c) ->
  (exists q, mg_centroid hypot i (mg_new ps None) = Ok q /\ ppts q = [c]) /\
  (exists q, mg_centroid hypot i (mg_new ps (Some m)) = Ok q /\ ppts q = [to_grid m c]).
Proof.
  intros hypot i ps m c Ex Ec. split.
  - destruct (C69_multi_get_centroid hypot i (mg_new ps None) c Ex Ec) as (q & E & P). exists q. split; [exact E|]. rewrite P. now destruct c.
  - destruct (C69_multi_get_centroid hypot i (mg_new ps (Some m)) c Ex Ec) as (q & E & P). exists q. now split.
Qed.
(** The hypotheses hold of a triangle with corner (5, 0); its centroid has ordinate 5/3, moved
    to 2 by a model of scale 1. *)
Definition tri53 : GRing := mkRg (seq_of [new_xy (fofZ 0) (fofZ 0); new_xy (fofZ 5) (fofZ 0); new_xy (fofZ 0) (fofZ 5); new_xy (fofZ 0) (fofZ 0)]) None None.
Example C69_built_example : rpts tri53 <> [] /\ exists p c, pg_new tri53 [] = Ok p /\ centroid_of_polygon (fun x _ => fabs x) i32_chk p = Ok (Some c) /\
  fltb (cx c) (fofZ 2) = true /\ feqb (make_precise (pm_new_with_scale f1) (cx c)) (fofZ 2) = true.
Proof.
  split; [discriminate|]. exists (mkPoly tri53 [] None None).
  assert (match centroid_of_polygon (fun x _ => fabs x) i32_chk (mkPoly tri53 [] None None) with
    | Ok (Some c) => fltb (cx c) (fofZ 2) && feqb (make_precise (pm_new_with_scale f1) (cx c)) (fofZ 2) | _ => false end = true) as K by (vm_compute; reflexivity).
  destruct (centroid_of_polygon (fun x _ => fabs x) i32_chk (mkPoly tri53 [] None None)) as [[c|]|]; try discriminate K.
  apply andb_true_iff in K. destruct K as (K1 & K2). exists c. split; [unfold pg_new, pg_new_pm; now rewrite rg_copy_id|]. auto.
Qed.

(** A copy, and so the answer of [get_polygon_at_index], forgets the precision model: it can
    answer another centroid than its original. *)
Theorem C69_copy_refuted : ~ (forall hypot i p q c, pg_copy p = Ok q -> pg_centroid hypot i p = Ok c -> exists c', pg_centroid hypot i q = Ok c' /\ ppts c' = ppts c).
Proof.
  intros H.
  set (p := mkPoly tri53 [] (Some (pm_new_with_scale f1)) None). set (h := fun x _ : f64 => fabs x).
  assert (match pg_copy p with Ok q => match pg_centroid h i32_chk p, pg_centroid h i32_chk q with
    | Ok c, Ok c' => match ppts c, ppts c' with a :: _, b :: _ => feqb (cx a) (cx a) && negb (feqb (cx a) (cx b)) | _, _ => false end
    | _, _ => false end | _ => false end = true) as K by (vm_compute; reflexivity).
  destruct (pg_copy p) as [q|] eqn:E1; [|discriminate K]. destruct (pg_centroid h i32_chk p) as [c|] eqn:E2; [|discriminate K].
  destruct (H h i32_chk p q c E1 E2) as (c' & E3 & P). rewrite E3, P in K. destruct (ppts c) as [|a l]; [discriminate K|].
  destruct (feqb (cx a) (cx a)); discriminate K.
Qed.

(** ** Examples *)
(** A square of side 6 with a square hole of side 2: the hypotheses of C69_polygon hold. *)
Definition ex_shell : list (Z * Z) := [(0, 0); (6, 0); (6, 6); (0, 6); (0, 0)].
Definition ex_hole : list (Z * Z) := [(1, 1); (1, 3); (3, 3); (3, 1); (1, 1)].
Definition of_ints (l : list (Z * Z)) : list Coordinate := map (fun z => new_xy (fofZ (fst z)) (fofZ (snd z))) l.
Definition ex_poly : GPoly := mkPoly (mkRg (seq_of (of_ints ex_shell)) None None) [mkRg (seq_of (of_ints ex_hole)) None None] None None.
Lemma of_ints_grid l : within (2 ^ 53) l -> on_grid 0 l (of_ints l).
Proof. induction 1 as [|z l (W1 & W2) _ IH]; constructor; [|exact IH]. split; now apply grid_fofZ. Qed.
Example C69_example : flat_ring 0 6 ex_shell (spts ex_poly) /\ Forall2 (flat_ring 0 6) [ex_hole] (hpts ex_poly) /\ well_turned ex_shell (spts ex_poly) /\ Forall2 well_turned [ex_hole] (hpts ex_poly) /\
  sum_len [ex_shell; ex_hole] * (24 * (6 * 6 * 6)) <= 2 ^ 53 /\ region size2 (ex_shell, [ex_hole]) = 64 /\ region weight6x (ex_shell, [ex_hole]) = 600 /\
  exists c, centroid_of_polygon (fun x _ => fabs x) i32_chk ex_poly = Ok (Some c) /\ near2 (cx c) (25 / 8).
Proof.
  assert (flat_ring 0 6 ex_shell (spts ex_poly)) as F1.
  { split; [exists (0, 0), [(6, 0); (6, 6); (0, 6)]; reflexivity|]. split; [apply of_ints_grid|]; repeat (apply Forall_cons; [cbn; lia|]); apply Forall_nil. }
  assert (flat_ring 0 6 ex_hole (of_ints ex_hole)) as F2.
  { split; [exists (1, 1), [(1, 3); (3, 3); (3, 1)]; reflexivity|]. split; [apply of_ints_grid|]; repeat (apply Forall_cons; [cbn; lia|]); apply Forall_nil. }
  assert (Forall2 (flat_ring 0 6) [ex_hole] (hpts ex_poly)) as F3 by (constructor; [exact F2|constructor]).
  assert (well_turned ex_shell (spts ex_poly)) as W1 by (split; [discriminate|vm_compute; reflexivity]).
  assert (Forall2 well_turned [ex_hole] (hpts ex_poly)) as W2 by (constructor; [split; [discriminate|vm_compute; reflexivity]|constructor]).
  assert (sum_len [ex_shell; ex_hole] * (24 * (6 * 6 * 6)) <= 2 ^ 53) as B by (cbn; lia).
  do 5 (split; [assumption|]). do 2 (split; [reflexivity|]).
  assert (0 - 300 <= 0 <= 300) as He by lia. assert (1 <= 6) as Hk by lia. assert (Z.of_nat (length (ex_shell :: [ex_hole])) <= 2147483647) as Bn by (cbn; lia).
  assert (region size2 (ex_shell, [ex_hole]) <> 0) as Na by discriminate.
  destruct (C69_polygon (fun x _ => fabs x) i32_chk 0 6 ex_poly ex_shell [ex_hole] (or_introl eq_refl) He Hk F1 F3 W1 W2 B Bn Na) as (c & E & Nx & _).
  exists c. split; [exact E|]. replace (25 / 8)%R with (IZR (region weight6x (ex_shell, [ex_hole])) / (3 * IZR (region size2 (ex_shell, [ex_hole]))) * bp 0)%R; [exact Nx|].
  change (region weight6x (ex_shell, [ex_hole])) with 600. change (region size2 (ex_shell, [ex_hole])) with 64. change (bp 0) with 1%R. field.
Qed.
(** An L-shaped line, a polygon folded onto a segment, and points. *)
Definition ex_line : list (Z * Z) := [(0, 0); (4, 0); (4, 2)].
Definition ex_flat : list (Z * Z) := [(0, 0); (4, 0); (2, 0); (0, 0)].
Example C69_example_line : rectilinear ex_line /\ on_grid 0 ex_line (of_ints ex_line) /\ within 4 ex_line /\ line_len ex_line = 6 /\ line2x ex_line = 32 /\ line2y ex_line = 4 /\
  rectilinear ex_flat /\ area2 ex_flat = 0 /\ flat_ring 0 4 ex_flat (of_ints ex_flat) /\ line_len ex_flat = 8 /\ line2x ex_flat = 32 /\ total fst ex_line = 8.
Proof.
  assert (forall l, within 4 l -> on_grid 0 l (of_ints l)) as G.
  { intros l W. apply of_ints_grid. eapply Forall_impl; [|exact W]. cbn. lia. }
  assert (within 4 ex_line) as W1 by (repeat (apply Forall_cons; [cbn; lia|]); apply Forall_nil).
  assert (within 4 ex_flat) as W2 by (repeat (apply Forall_cons; [cbn; lia|]); apply Forall_nil).
  assert (forall a b c, fst a = fst b \/ snd a = snd b -> rectilinear (b :: c) -> rectilinear (a :: b :: c)) as Rc.
  { intros a b c H R l1 x y l2 E. destruct l1 as [|z l1]; [injection E as <- <- _; exact H|]. injection E as _ E. exact (R l1 x y l2 E). }
  assert (forall a, rectilinear [a]) as R1. { intros a l1 x y l2 E. destruct l1 as [|? [|? ?]]; discriminate. }
  assert (rectilinear ex_line) as L1. { apply Rc; [now right|]. apply Rc; [now left|]. apply R1. }
  assert (rectilinear ex_flat) as L2. { do 3 (apply Rc; [now right|]). apply R1. }
  assert (closed_chain ex_flat) as C2 by (exists (0, 0), [(4, 0); (2, 0)]; reflexivity).
  repeat split; try assumption; try reflexivity; now apply G.
Qed.
