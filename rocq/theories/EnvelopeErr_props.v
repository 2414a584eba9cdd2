(** C06, C07, C62 and C71, continued: envelopes moved and measured at arbitrary
    doubles, parallel vectors and translated points. *)
From Coq Require Import ZArith Bool List Reals Lia Lra Psatz.
From Flocq Require Import Core IEEE754.BinarySingleNaN.
From Verif Require Import Base F64 F64Facts F64Err Num NumLink Coordinate_model Envelope_model Envelope_spec Envelope_proofs Envelope_props
  Orientation_spec Orientation_proofs Orientation_props Distance_model Distance_spec Distance_proofs Distance_float Distance_props
  DD_spec MeasureErr_spec MeasureErr_proofs CentroidErr_spec CentroidErr_proofs MeetErr_proofs CircumErr_props DistanceErr_proofs DistanceErr_props
  SegmentErr_props SpaceErr_props Vector_model Vector_props VectorErr_props.
Import ListNotations.
Local Open Scope R_scope.

(** The bounds are numbers of size at most [2^k]. *)
Definition box_below (k : Z) (e : Envelope) : Prop := bf k (minx e) /\ bf k (maxx e) /\ bf k (miny e) /\ bf k (maxy e).
(** The real points of a box. *)
Definition real_box (e : Envelope) (p : pR) : Prop :=
  R_of (minx e) <= px p <= R_of (maxx e) /\ R_of (miny e) <= py p <= R_of (maxy e).
(** [x] is [r] rounded once. *)
Definition once (x : f64) (r : R) : Prop := fis_finite x = true /\ Rabs (R_of x - r) <= bp (-53) * Rabs r.

Lemma once_add x y k : (-1074 <= k + 1 < 1024)%Z -> bf k x -> bf k y -> once (fadd x y) (R_of x + R_of y).
Proof.
  intros K X Y. destruct (bf_add k x y K X Y) as ((F & _) & E). split; [exact F|]. rewrite E. apply RN_sum_err; apply format_R.
Qed.
Lemma once_sub x y k : (-1074 <= k + 1 < 1024)%Z -> bf k x -> bf k y -> once (fsub x y) (R_of x - R_of y).
Proof.
  intros K X Y. destruct (bf_sub k x y K X Y) as ((F & _) & E). split; [exact F|]. rewrite E. apply RN_sub_err; apply format_R.
Qed.
Lemma box_le e : is_box e -> finite_env e -> R_of (minx e) <= R_of (maxx e) /\ R_of (miny e) <= R_of (maxy e).
Proof.
  intros (A & B) (F1 & F2 & F3 & F4). unfold lef in *. rewrite fleb_R in A, B by assumption. split.
  - destruct (Rle_bool_spec (R_of (minx e)) (R_of (maxx e))); [assumption|discriminate].
  - destruct (Rle_bool_spec (R_of (miny e)) (R_of (maxy e))); [assumption|discriminate].
Qed.
Lemma box_fin k e : box_below k e -> finite_env e.
Proof. intros (A & B & C & D). repeat split; eapply bf_fin; eassumption. Qed.

(** ** Moving the sides *)
(** A buffered box is the exact one with each side rounded once, and becomes
    null only if the exact one is empty. *)
Theorem C06_expand_error : forall e dx dy, is_box e -> box_below 1000 e -> bf 1000 dx -> bf 1000 dy ->
  let e' := expand_by_delta_xy e dx dy in
  (e' = env_default /\ (R_of (maxx e) + R_of dx < R_of (minx e) - R_of dx \/ R_of (maxy e) + R_of dy < R_of (miny e) - R_of dy)) \/
  (is_box e' /\ once (minx e') (R_of (minx e) - R_of dx) /\ once (maxx e') (R_of (maxx e) + R_of dx) /\
   once (miny e') (R_of (miny e) - R_of dy) /\ once (maxy e') (R_of (maxy e) + R_of dy)).
Proof.
  intros e dx dy B (A1 & A2 & A3 & A4) X Y. cbv zeta. unfold expand_by_delta_xy. rewrite null_box by assumption. cbn [minx maxx miny maxy].
  assert (-1074 <= 1000 + 1 < 1024)%Z as K by lia.
  destruct (bf_sub _ _ _ K A1 X) as ((F1 & _) & E1). destruct (bf_add _ _ _ K A2 X) as ((F2 & _) & E2).
  destruct (bf_sub _ _ _ K A3 Y) as ((F3 & _) & E3). destruct (bf_add _ _ _ K A4 Y) as ((F4 & _) & E4).
  unfold fgtb. rewrite !fltb_R by assumption. rewrite E1, E2, E3, E4.
  destruct (Rlt_bool_spec (RN (R_of (maxx e) + R_of dx)) (RN (R_of (minx e) - R_of dx))) as [L|L].
  { left. split; [reflexivity|]. left. apply Rnot_le_lt. intros H. apply RN_le in H. lra. }
  destruct (Rlt_bool_spec (RN (R_of (maxy e) + R_of dy)) (RN (R_of (miny e) - R_of dy))) as [L'|L'].
  { left. split; [reflexivity|]. right. apply Rnot_le_lt. intros H. apply RN_le in H. lra. }
  right. cbn [orb minx maxx miny maxy]. split.
  { split; unfold lef; cbn [minx maxx miny maxy]; rewrite fleb_R by assumption; apply Rle_bool_true; congruence. }
  split; [apply (once_sub _ _ 1000); auto|]. split; [apply (once_add _ _ 1000); auto|]. split; [apply (once_sub _ _ 1000); auto|]. apply (once_add _ _ 1000); auto.
Qed.
(** A translated box is the exact one with each side rounded once. *)
Theorem C06_translate_error : forall e tx ty, is_box e -> box_below 1000 e -> bf 1000 tx -> bf 1000 ty ->
  let e' := env_translate e tx ty in
  is_box e' /\ once (minx e') (R_of (minx e) + R_of tx) /\ once (maxx e') (R_of (maxx e) + R_of tx) /\
  once (miny e') (R_of (miny e) + R_of ty) /\ once (maxy e') (R_of (maxy e) + R_of ty).
Proof.
  intros e tx ty B Bb X Y. pose proof Bb as (A1 & A2 & A3 & A4). destruct (box_le e B (box_fin _ _ Bb)) as (Lx & Ly).
  cbv zeta. unfold env_translate. rewrite null_box by assumption. assert (-1074 <= 1000 + 1 < 1024)%Z as K by lia.
  destruct (bf_add _ _ _ K A1 X) as ((F1 & _) & E1). destruct (bf_add _ _ _ K A2 X) as ((F2 & _) & E2).
  destruct (bf_add _ _ _ K A3 Y) as ((F3 & _) & E3). destruct (bf_add _ _ _ K A4 Y) as ((F4 & _) & E4).
  pose proof (once_add _ _ _ K A1 X) as O1. pose proof (once_add _ _ _ K A2 X) as O2. pose proof (once_add _ _ _ K A3 Y) as O3. pose proof (once_add _ _ _ K A4 Y) as O4.
  assert (R_of (fadd (minx e) tx) <= R_of (fadd (maxx e) tx)) as Mx by (rewrite E1, E2; apply RN_le; lra).
  assert (R_of (fadd (miny e) ty) <= R_of (fadd (maxy e) ty)) as My by (rewrite E3, E4; apply RN_le; lra).
  assert (forall a b r s, once a r -> once b s -> R_of a <= R_of b ->
    let c := if fltb a b then a else b in let d := if fltb a b then b else a in lef c d /\ once c r /\ once d s) as G.
  { intros a b r s (Fa & Ea) (Fb & Eb) L. cbv zeta. rewrite fltb_R by assumption. unfold lef. destruct (Rlt_bool_spec (R_of a) (R_of b)).
    - split; [rewrite fleb_R by assumption; apply Rle_bool_true; exact L|]. now repeat split.
    - assert (R_of a = R_of b) as Q by lra. split; [rewrite fleb_R by assumption; apply Rle_bool_true; lra|].
      unfold once. rewrite Q in *. now repeat split. }
  destruct (G _ _ _ _ O1 O2 Mx) as (G1 & G2 & G3). destruct (G _ _ _ _ O3 O4 My) as (G4 & G5 & G6).
  cbn [minx maxx miny maxy]. split; [split; assumption|]. auto.
Qed.

(** ** Sizes *)
Theorem C71_sizes_error : forall e, is_box e -> box_below 500 e ->
  let W := R_of (maxx e) - R_of (minx e) in let H := R_of (maxy e) - R_of (miny e) in
  once (get_width e) W /\ once (get_height e) H /\ once (min_extent e) (Rmin W H) /\ once (max_extent e) (Rmax W H) /\
  fis_finite (env_get_area e) = true /\ Rabs (R_of (env_get_area e) - W * H) <= bp (-51) * (W * H) + bp (-1075).
Proof.
  intros e B Bb. pose proof Bb as (A1 & A2 & A3 & A4). destruct (box_le e B (box_fin _ _ Bb)) as (Lx & Ly). cbv zeta.
  set (W := R_of (maxx e) - R_of (minx e)). set (H := R_of (maxy e) - R_of (miny e)). assert (0 <= W) as W0 by (unfold W; lra). assert (0 <= H) as H0 by (unfold H; lra).
  unfold env_get_area, min_extent, max_extent, get_width, get_height. rewrite null_box by assumption.
  assert (-1074 <= 500 + 1 < 1024)%Z as K by lia.
  pose proof (once_sub _ _ _ K A2 A1) as Ow. pose proof (once_sub _ _ _ K A4 A3) as Oh. fold W in Ow. fold H in Oh.
  destruct (bf_sub _ _ _ K A2 A1) as (Bw & Ew). destruct (bf_sub _ _ _ K A4 A3) as (Bh & Eh). fold W in Ew. fold H in Eh.
  set (w := fsub (maxx e) (minx e)) in *. set (h := fsub (maxy e) (miny e)) in *.
  split; [exact Ow|]. split; [exact Oh|]. pose proof Ow as (Fw & Rw). pose proof Oh as (Fh & Rh). unfold fgtb. rewrite !fltb_R by assumption.
  assert (W <= H -> R_of w <= R_of h) as M1 by (intros; rewrite Ew, Eh; now apply RN_le).
  assert (H <= W -> R_of h <= R_of w) as M2 by (intros; rewrite Ew, Eh; now apply RN_le).
  split; [|split].
  - destruct (Rlt_bool_spec (R_of w) (R_of h)) as [L|L]; destruct (Rle_or_lt W H) as [Q|Q].
    + rewrite Rmin_left by exact Q. exact Ow.
    + exfalso. apply Rlt_le, M2 in Q. lra.
    + rewrite Rmin_left by exact Q. split; [exact Fh|]. replace (R_of h) with (R_of w) by (apply M1 in Q; lra). exact Rw.
    + rewrite Rmin_right by lra. exact Oh.
  - destruct (Rlt_bool_spec (R_of h) (R_of w)) as [L|L]; destruct (Rle_or_lt W H) as [Q|Q].
    + exfalso. apply M1 in Q. lra.
    + rewrite Rmax_left by lra. exact Ow.
    + rewrite Rmax_right by exact Q. exact Oh.
    + rewrite Rmax_left by lra. split; [exact Fh|]. replace (R_of h) with (R_of w) by (apply Rlt_le, M2 in Q; lra). exact Rw.
  - destruct (bf_mul _ _ w h (ltac:(lia) : (-1074 <= (500 + 1) + (500 + 1) < 1024)%Z) Bw Bh) as ((Fp & _) & Ep). split; [exact Fp|].
    rewrite Ep. pose proof (RN_err (R_of w * R_of h)) as Er. pose proof u53_pos as U. pose proof u53_small as Us.
    rewrite (Rabs_pos_eq W W0) in Rw. rewrite (Rabs_pos_eq H H0) in Rh. apply Rabs_le_inv in Rw. apply Rabs_le_inv in Rh.
    assert (0 <= R_of w) as w0 by nra. assert (0 <= R_of h) as h0 by nra. assert (0 <= W * H) as P0 by (apply Rmult_le_pos; assumption).
    assert (R_of w * R_of h <= (1 + u53) * (1 + u53) * (W * H)) as Up.
    { replace ((1 + u53) * (1 + u53) * (W * H)) with (((1 + u53) * W) * ((1 + u53) * H)) by ring. apply Rmult_le_compat; lra. }
    assert ((1 - u53) * (1 - u53) * (W * H) <= R_of w * R_of h) as Lo.
    { replace ((1 - u53) * (1 - u53) * (W * H)) with (((1 - u53) * W) * ((1 - u53) * H)) by ring. apply Rmult_le_compat; try (apply Rmult_le_pos); lra. }
    rewrite (Rabs_pos_eq (R_of w * R_of h)) in Er by (apply Rmult_le_pos; assumption). apply Rabs_le_inv in Er. rewrite <- u_4. set (p := R_of w * R_of h) in *. set (P := W * H) in *.
    assert (0 <= u53 * P) as UP by (apply Rmult_le_pos; lra). assert (u53 * (u53 * P) <= / 8 * (u53 * P)) as UUP by (apply Rmult_le_compat_r; lra).
    assert (u53 * p <= u53 * ((1 + u53) * (1 + u53) * P)) as Q1 by (apply Rmult_le_compat_l; lra).
    replace (u53 * ((1 + u53) * (1 + u53) * P)) with (u53 * P + 2 * (u53 * (u53 * P)) + u53 * (u53 * (u53 * P))) in Q1 by ring.
    assert (u53 * (u53 * (u53 * P)) <= / 8 * (u53 * (u53 * P))) by (apply Rmult_le_compat_r; [apply Rmult_le_pos; lra|lra]).
    replace ((1 + u53) * (1 + u53) * P) with (P + 2 * (u53 * P) + u53 * (u53 * P)) in Up by ring.
    replace ((1 - u53) * (1 - u53) * P) with (P - 2 * (u53 * P) + u53 * (u53 * P)) in Lo by ring.
    assert (0 <= u53 * (u53 * P)) by (apply Rmult_le_pos; lra). apply Rabs_le. lra.
Qed.
Theorem C71_centre_error : forall e ct, is_box e -> box_below 900 e -> env_centre e = Some ct ->
  let X := (R_of (minx e) + R_of (maxx e)) / 2 in let Y := (R_of (miny e) + R_of (maxy e)) / 2 in
  Rabs (R_of (cx ct) - X) <= bp (-51) * Rabs X + bp (-1075) /\ Rabs (R_of (cy ct) - Y) <= bp (-51) * Rabs Y + bp (-1075).
Proof.
  intros e ct B ((F1 & A1) & (F2 & A2) & (F3 & A3) & (F4 & A4)). unfold env_centre. rewrite null_box by assumption. intros Q. injection Q as <-.
  cbv zeta. cbn [cx cy new_xy]. split; apply half_err; assumption.
Qed.

(** ** Distance of boxes *)
(** The exact gap of two intervals. *)
Definition gapR (a1 a2 b1 b2 : R) : R := if Rlt_dec a2 b1 then b1 - a2 else if Rlt_dec b2 a1 then a1 - b2 else 0.
Lemma gapR_pos a1 a2 b1 b2 : 0 <= gapR a1 a2 b1 b2.
Proof. unfold gapR. destruct (Rlt_dec a2 b1); [lra|]. destruct (Rlt_dec b2 a1); lra. Qed.
Lemma gapR_least a1 a2 b1 b2 : a1 <= a2 -> b1 <= b2 ->
  (exists x y, a1 <= x <= a2 /\ b1 <= y <= b2 /\ Rabs (x - y) = gapR a1 a2 b1 b2) /\
  (forall x y, a1 <= x <= a2 -> b1 <= y <= b2 -> gapR a1 a2 b1 b2 <= Rabs (x - y)).
Proof.
  intros A B. unfold gapR. destruct (Rlt_dec a2 b1) as [L|L]; [|destruct (Rlt_dec b2 a1) as [M|M]].
  - split; [exists a2, b1; rewrite Rabs_left by lra; lra|]. intros x y X Y. rewrite Rabs_left; lra.
  - split; [exists a1, b2; rewrite Rabs_pos_eq by lra; lra|]. intros x y X Y. rewrite Rabs_pos_eq; lra.
  - split; [|intros; apply Rabs_pos]. exists (Rmax a1 b1), (Rmax a1 b1).
    pose proof (Rmax_l a1 b1). pose proof (Rmax_r a1 b1). assert (Rmax a1 b1 <= a2 /\ Rmax a1 b1 <= b2) by (split; apply Rmax_lub; lra).
    rewrite Rminus_diag_eq, Rabs_R0 by reflexivity. lra.
Qed.
(** The least distance of two boxes: both gaps together. *)
Lemma box_dist a b : is_box a -> is_box b -> finite_env a -> finite_env b ->
  let g := sqrt ((gapR (R_of (minx a)) (R_of (maxx a)) (R_of (minx b)) (R_of (maxx b)))² + (gapR (R_of (miny a)) (R_of (maxy a)) (R_of (miny b)) (R_of (maxy b)))²) in
  least_distance (real_box a) (real_box b) g.
Proof.
  intros Ba Bb Fa Fb. cbv zeta. destruct (box_le a Ba Fa) as (Ax & Ay). destruct (box_le b Bb Fb) as (Cx & Cy).
  destruct (gapR_least _ _ _ _ Ax Cx) as ((x & y & X & Y & E) & Gx). destruct (gapR_least _ _ _ _ Ay Cy) as ((x' & y' & X' & Y' & E') & Gy).
  pose proof (gapR_pos (R_of (minx a)) (R_of (maxx a)) (R_of (minx b)) (R_of (maxx b))) as P.
  pose proof (gapR_pos (R_of (miny a)) (R_of (maxy a)) (R_of (miny b)) (R_of (maxy b))) as P'.
  set (gx := gapR (R_of (minx a)) _ _ _) in *. set (gy := gapR (R_of (miny a)) _ _ _) in *. split.
  - exists (mkP x x'), (mkP y y'). split; [split; assumption|]. split; [split; assumption|]. unfold dist. cbn [px py]. rewrite (Rsqr_abs (x - y)), (Rsqr_abs (x' - y')), E, E'. reflexivity.
  - intros p q (Pa & Pb) (Qa & Qb). unfold dist. apply sqrt_le_1_alt. apply Rplus_le_compat.
    + rewrite (Rsqr_abs (px p - px q)). apply Rsqr_incr_1; [apply Gx; assumption|exact P|apply Rabs_pos].
    + rewrite (Rsqr_abs (py p - py q)). apply Rsqr_incr_1; [apply Gy; assumption|exact P'|apply Rabs_pos].
Qed.
Lemma gap_once a1 a2 b1 b2 : bf 900 a1 -> bf 900 a2 -> bf 900 b1 -> bf 900 b2 ->
  once (if fltb a2 b1 then fsub b1 a2 else if fgtb a1 b2 then fsub a1 b2 else f0) (gapR (R_of a1) (R_of a2) (R_of b1) (R_of b2)).
Proof.
  intros A1 A2 B1 B2. unfold gapR, fgtb. rewrite !fltb_R by (eapply bf_fin; eassumption).
  destruct (Rlt_dec (R_of a2) (R_of b1)) as [L|L].
  { rewrite Rlt_bool_true by exact L. apply (once_sub _ _ 900); [lia|assumption..]. }
  rewrite Rlt_bool_false by lra. destruct (Rlt_dec (R_of b2) (R_of a1)) as [M|M].
  { rewrite Rlt_bool_true by exact M. apply (once_sub _ _ 900); [lia|assumption..]. }
  rewrite Rlt_bool_false by lra. split; [reflexivity|]. change (R_of f0) with 0. rewrite Rminus_diag_eq, Rabs_R0 by reflexivity. lra.
Qed.
Lemma hyp_near x y X Y : 0 <= X -> 0 <= Y -> Rabs (x - X) <= u53 * X -> Rabs (y - Y) <= u53 * Y ->
  let D := sqrt (X² + Y²) in (1 - u53) * D <= sqrt (x * x + y * y) <= (1 + u53) * D.
Proof.
  intros X0 Y0 Ex Ey. cbv zeta. pose proof u53_pos as U. pose proof u53_small as Us. apply Rabs_le_inv in Ex. apply Rabs_le_inv in Ey.
  assert (forall k, 0 <= k -> k * sqrt (X² + Y²) = sqrt ((k * X)² + (k * Y)²)) as S.
  { intros k K. rewrite !Rsqr_mult, <- Rmult_plus_distr_l, sqrt_mult_alt, sqrt_Rsqr by (try apply Rle_0_sqr; exact K). reflexivity. }
  rewrite !S by lra. change (x * x) with (x²). change (y * y) with (y²).
  assert (0 <= (1 - u53) * X) by (apply Rmult_le_pos; lra). assert (0 <= (1 - u53) * Y) by (apply Rmult_le_pos; lra).
  split; apply sqrt_le_1_alt; apply Rplus_le_compat; apply Rsqr_incr_1; lra.
Qed.
(** The distance of two boxes is the least distance of their points up to a
    relative [2^-51]. *)
Theorem C07_distance_error : forall hypot a b d, hypot_accurate hypot -> is_box a -> is_box b -> box_below 900 a -> box_below 900 b ->
  least_distance (real_box a) (real_box b) d -> d = 0 \/ bp (-900) <= d -> close_to (distance_envelope hypot a b) d.
Proof.
  intros hypot a b d Hh Ba Bb Ka Kb Ld Rg.
  pose proof (box_dist a b Ba Bb (box_fin _ _ Ka) (box_fin _ _ Kb)) as L. cbv zeta in L.
  pose proof (least_unique _ _ _ _ Ld L) as Ed. clear L.
  destruct Ka as (A1 & A2 & A3 & A4). destruct Kb as (B1 & B2 & B3 & B4).
  pose proof (gap_once _ _ _ _ A1 A2 B1 B2) as (Fx & Ex). pose proof (gap_once _ _ _ _ A3 A4 B3 B4) as (Fy & Ey).
  pose proof (gapR_pos (R_of (minx a)) (R_of (maxx a)) (R_of (minx b)) (R_of (maxx b))) as X0.
  pose proof (gapR_pos (R_of (miny a)) (R_of (maxy a)) (R_of (miny b)) (R_of (maxy b))) as Y0.
  assert (intersects_envelope a b = true -> gapR (R_of (minx a)) (R_of (maxx a)) (R_of (minx b)) (R_of (maxx b)) = 0 /\ gapR (R_of (miny a)) (R_of (maxy a)) (R_of (miny b)) (R_of (maxy b)) = 0) as I.
  { unfold intersects_envelope. rewrite !null_box by assumption. cbn [orb]. unfold fgtb. rewrite !fltb_R by (eapply bf_fin; eassumption). unfold gapR.
    repeat (match goal with |- context [Rlt_bool ?s ?t] => destruct (Rlt_bool_spec s t) end; [discriminate|]).
    intros _. split; repeat (match goal with |- context [Rlt_dec ?s ?t] => destruct (Rlt_dec s t); [lra|] end); reflexivity. }
  unfold distance_envelope. destruct (intersects_envelope a b).
  { destruct (I eq_refl) as (Zx & Zy). clear I. rewrite Zx, Zy, !Rsqr_0, Rplus_0_r, sqrt_0 in Ed. rewrite Ed. split; [reflexivity|]. change (R_of f0) with 0. rewrite Rminus_diag_eq, Rabs_R0 by reflexivity. lra. }
  clear I. set (gx := gapR (R_of (minx a)) _ _ _) in *. set (gy := gapR (R_of (miny a)) _ _ _) in *.
  set (dx := if fltb (maxx a) (minx b) then _ else _) in *. set (dy := if fltb (maxy a) (miny b) then _ else _) in *.
  rewrite !feqb_R by (reflexivity || assumption). change (R_of f0) with 0. pose proof u53_pos as U. pose proof u53_small as Us.
  rewrite (Rabs_pos_eq _ X0) in Ex. rewrite (Rabs_pos_eq _ Y0) in Ey.
  assert (forall x g, 0 <= g -> Rabs (x - g) <= u53 * g -> x = 0 -> g = 0) as Z.
  { intros x g G0 E Q. rewrite Q in E. apply Rabs_le_inv in E. nra. }
  unfold close_to. rewrite <- u_4. destruct (Req_bool_spec (R_of dx) 0) as [Qx|Qx].
  { split; [exact Fy|]. rewrite (Z _ _ X0 Ex Qx), Rsqr_0, Rplus_0_l, sqrt_Rsqr in Ed by exact Y0. rewrite Ed. assert (0 <= u53 * gy) by (apply Rmult_le_pos; lra). lra. }
  destruct (Req_bool_spec (R_of dy) 0) as [Qy|Qy].
  { split; [exact Fx|]. rewrite (Z _ _ Y0 Ey Qy), Rsqr_0, Rplus_0_r, sqrt_Rsqr in Ed by exact X0. rewrite Ed. assert (0 <= u53 * gx) by (apply Rmult_le_pos; lra). lra. }
  destruct (hyp_near _ _ _ _ X0 Y0 Ex Ey) as (Lo & Up). rewrite <- Ed in Lo, Up.
  assert (0 < gx) as Gx. { destruct X0 as [X0|X0]; [exact X0|]. exfalso. apply Qx. rewrite <- X0 in Ex. rewrite Rmult_0_r, Rminus_0_r in Ex. pose proof (Rabs_pos (R_of dx)). destruct (Req_dec (R_of dx) 0) as [|N]; [assumption|]. apply Rabs_pos_lt in N. lra. }
  assert (0 < d) as D0. { rewrite Ed. apply sqrt_lt_R0. pose proof (Rlt_0_sqr gx ltac:(lra)). pose proof (Rle_0_sqr gy). lra. }
  assert (bp (-900) <= d) as Dl by (destruct Rg; [lra|assumption]). assert (bp (-900) = 2 * bp (-901)) as H2 by exact (bp_S (-901)).
  assert (bp (-1000) <= bp (-901)) as H3 by (apply bpow_le; lia).
  assert (forall s t, bf 900 s -> bf 900 t -> Rabs (R_of s - R_of t) <= bp 901) as Df.
  { intros s t (_ & S) (_ & T). change 901%Z with (900 + 1)%Z. rewrite bp_S. apply Rabs_le_inv in S. apply Rabs_le_inv in T. apply Rabs_le. lra. }
  pose proof (bpow_gt_0 radix2 901) as P901.
  assert (gx <= bp 901) as Ux. { unfold gx, gapR. destruct (Rlt_dec _ _) as [q|_]; [pose proof (Df _ _ B1 A2) as V; apply Rabs_le_inv in V; lra|]. destruct (Rlt_dec _ _); [pose proof (Df _ _ A1 B2) as V; apply Rabs_le_inv in V; lra|lra]. }
  assert (gy <= bp 901) as Uy. { unfold gy, gapR. destruct (Rlt_dec _ _) as [q|_]; [pose proof (Df _ _ B3 A4) as V; apply Rabs_le_inv in V; lra|]. destruct (Rlt_dec _ _); [pose proof (Df _ _ A3 B4) as V; apply Rabs_le_inv in V; lra|lra]. }
  assert (d <= 2 * bp 901) as Du.
  { rewrite Ed. apply Rle_trans with (sqrt ((2 * bp 901)²)); [|rewrite sqrt_Rsqr; lra]. apply sqrt_le_1_alt. unfold Rsqr. nra. }
  assert (bp 903 = 4 * bp 901) as H4 by (change 903%Z with (901 + 1 + 1)%Z; rewrite !bp_S; ring). assert (bp 903 <= bp 1000) as H5 by (apply bpow_le; lia).
  destruct (Hh dx dy Fx Fy) as (F & E).
  { right. assert (u53 * d <= / 8 * d) by (apply Rmult_le_compat_r; lra). lra. }
  split; [exact F|]. rewrite bp52 in E. set (h := sqrt (R_of dx * R_of dx + R_of dy * R_of dy)) in *.
  apply Rabs_le_inv in E. assert (2 * u53 * h <= 2 * u53 * ((1 + u53) * d)) as E2 by (apply Rmult_le_compat_l; lra).
  assert (0 <= u53 * d) by (apply Rmult_le_pos; lra).
  assert (u53 * (u53 * d) <= / 8 * (u53 * d)) by (apply Rmult_le_compat_r; lra).
  replace (2 * u53 * ((1 + u53) * d)) with (2 * (u53 * d) + 2 * (u53 * (u53 * d))) in E2 by ring. apply Rabs_le. lra.
Qed.

(** ** Vectors *)
(** [is_parallel] is right: both products and the sign of their difference
    are exact. *)
Theorem C62_parallel_exact : forall u v, midv u -> midv v ->
  v2_is_parallel u v = true <-> R_of (vx u) * R_of (vy v) = R_of (vy u) * R_of (vx v).
Proof.
  intros u v (A & B) (C & D). unfold v2_is_parallel. pose proof (C73_sign_of_det _ _ _ _ A B C D) as S. cbv zeta in S.
  destruct S as [(-> & S)|[(-> & S)|(-> & S)]]; (split; [intros E; try discriminate E; lra|intros E; first [reflexivity|exfalso; lra]]).
Qed.
(** Translating [p] by the vector from [p] to [q] gives [q] up to one rounding
    of the difference and one of the sum. *)
Theorem C62_translate_error : forall p q, pt_below 900 p -> pt_below 900 q ->
  forall o, o = cx \/ o = cy -> let r := v2_translate (v2_from_to p q) p in
  fis_finite (o r) = true /\ Rabs (R_of (o r) - R_of (o q)) <= bp (-51) * (Rabs (R_of (o p)) + Rabs (R_of (o q))).
Proof.
  intros p q P Q. pose proof u53_pos as U. pose proof u53_small as Us.
  assert (forall s t, bf 900 s -> bf 900 t -> fis_finite (fadd (fsub t s) s) = true /\ Rabs (R_of (fadd (fsub t s) s) - R_of t) <= bp (-51) * (Rabs (R_of s) + Rabs (R_of t))) as G.
  { intros s t S T. destruct (bf_sub 900 t s ltac:(lia) T S) as (Bd & Ed).
    destruct (bf_add (900 + 1) (fsub t s) s ltac:(lia) Bd (bf_weak 900 (900 + 1) s ltac:(lia) S)) as ((F & _) & E). split; [exact F|].
    pose proof (RN_sub_err _ _ (format_R t) (format_R s)) as E1. rewrite <- Ed in E1. pose proof (RN_sum_err _ _ (format_R (fsub t s)) (format_R s)) as E2. rewrite <- E in E2.
    set (x := R_of (fadd _ _)) in *. set (dd := R_of (fsub t s)) in *. set (S' := R_of s) in *. set (T' := R_of t) in *. rewrite <- u_4.
    assert (Rabs (T' - S') <= Rabs S' + Rabs T') as D by (replace (T' - S') with (T' + - S') by ring; eapply Rle_trans; [apply Rabs_triang|]; rewrite Rabs_Ropp; lra).
    assert (Rabs (dd + S') <= Rabs T' + u53 * Rabs (T' - S')) as V. { replace (dd + S') with (T' + (dd - (T' - S'))) by ring. eapply Rle_trans; [apply Rabs_triang|]. lra. }
    replace (x - T') with ((x - (dd + S')) + (dd - (T' - S'))) by ring. eapply Rle_trans; [apply Rabs_triang|].
    pose proof (Rabs_pos S'). pose proof (Rabs_pos T'). assert (u53 * Rabs (T' - S') <= u53 * (Rabs S' + Rabs T')) by (apply Rmult_le_compat_l; lra).
    assert (u53 * Rabs (dd + S') <= u53 * (2 * (Rabs S' + Rabs T'))); [|nra]. apply Rmult_le_compat_l; [lra|]. nra. }
  intros o [-> | ->]; cbv zeta; unfold v2_translate, v2_from_to; cbn [cx cy vx vy new_xy]; apply G; apply P || apply Q.
Qed.

Example C07_error_example : is_box (mkE f0 third f0 f1) /\ box_below 900 (mkE f0 third f0 f1) /\ box_below 500 (mkE f0 third f0 f1) /\ box_below 1000 (mkE f0 third f0 f1) /\
  bf 1000 third /\ is_box (mkE f1 f1 f0 f0) /\ box_below 900 (mkE f1 f1 f0 f0) /\
  least_distance (real_box (mkE f0 third f0 f1)) (real_box (mkE f1 f1 f0 f0)) (1 - R_of third) /\ bp (-900) <= 1 - R_of third /\
  env_centre (mkE f0 third f0 f1) <> None.
Proof.
  destruct mid_third as (T & O & I & S).
  assert (R_of third = 6004799503160661 * bp (-54)) as E by reflexivity. assert (bp (-54) = / 18014398509481984) as E' by (cbn; lra). rewrite E' in E. clear E'.
  assert (forall k, (470 <= k)%Z -> bf k third /\ bf k f0 /\ bf k f1) as K.
  { intros k Hk. repeat split; try reflexivity; (eapply Rle_trans; [first [apply T|apply O|apply I]|apply bpow_le; exact Hk]). }
  destruct (K 900%Z ltac:(lia)) as (T9 & O9 & I9). destruct (K 500%Z ltac:(lia)) as (T5 & O5 & I5). destruct (K 1000%Z ltac:(lia)) as (T1 & O1 & I1).
  assert (is_box (mkE f0 third f0 f1)) as B by (split; reflexivity). assert (is_box (mkE f1 f1 f0 f0)) as B' by (split; reflexivity).
  assert (box_below 900 (mkE f0 third f0 f1)) as K1 by (repeat split; assumption || (first [apply T9|apply O9|apply I9])).
  assert (box_below 900 (mkE f1 f1 f0 f0)) as K2 by (repeat split; assumption || (first [apply T9|apply O9|apply I9])).
  split; [exact B|]. split; [exact K1|]. split; [repeat split; first [apply T5|apply O5|apply I5]|]. split; [repeat split; first [apply T1|apply O1|apply I1]|].
  split; [exact T1|]. split; [exact B'|]. split; [exact K2|]. split.
  - split.
    + exists (mkP (R_of third) 0), (mkP 1 0). unfold real_box. cbn [minx maxx miny maxy px py]. change (R_of f0) with 0. rewrite R_of_f1.
      split; [lra|]. split; [lra|]. unfold dist. cbn [px py]. replace ((R_of third - 1)² + (0 - 0)²) with ((1 - R_of third)²) by (unfold Rsqr; ring). apply sqrt_Rsqr. lra.
    + intros p q (Px & Py) (Qx & Qy). cbn [minx maxx miny maxy] in *. change (R_of f0) with 0 in *. rewrite R_of_f1 in *.
      unfold dist. apply Rle_trans with (sqrt ((1 - R_of third)²)); [rewrite sqrt_Rsqr; lra|]. apply sqrt_le_1_alt.
      pose proof (Rle_0_sqr (py p - py q)). assert ((1 - R_of third)² <= (px p - px q)²); [|lra]. rewrite (Rsqr_neg_minus (px p)). apply Rsqr_incr_1; lra.
  - split; [|discriminate]. apply Rle_trans with (bp (-1)); [apply bpow_le; lia|]. change (bp (-1)) with (/ 2). lra.
Qed.
Example C62_parallel_exact_example : midv (mkV2 third f1) /\ midv (mkV2 f1 (fofZ 3)) /\
  v2_is_parallel (mkV2 third f1) (mkV2 third f1) = true /\ v2_is_parallel (mkV2 third f1) (mkV2 f1 (fofZ 3)) = false /\
  pt_below 900 (new_xy third f1) /\ v2_translate (v2_from_to (new_xy third f1) (new_xy (fofZ 7) f0)) (new_xy third f1) <> new_xy third f1.
Proof.
  destruct mid_third as (T & O & I & S).
  assert (mid (fofZ 3)) as M3. { split; [reflexivity|]. replace (R_of (fofZ 3)) with 3 by (vm_compute; lra). rewrite Rabs_pos_eq by lra. split.
    - apply Rle_trans with (bp 2); [change (bp 2) with 4; lra|apply bpow_le; lia].
    - right. apply Rle_trans with (bp 0); [apply bpow_le; lia|change (bp 0) with 1; lra]. }
  split; [now split|]. split; [now split|]. split; [vm_compute; reflexivity|]. split; [vm_compute; reflexivity|]. split.
  - repeat split; cbn [cx cy new_xy]; (eapply Rle_trans; [first [apply T|apply I]|apply bpow_le; lia]).
  - intros Q. apply (f_equal cx) in Q. assert (feqb (cx (v2_translate (v2_from_to (new_xy third f1) (new_xy (fofZ 7) f0)) (new_xy third f1))) third = false) as N by (vm_compute; reflexivity).
    rewrite Q in N. vm_compute in N. discriminate.
Qed.
