(** Two segments at arbitrary doubles: what rounding can do to their distance. *)
From Coq Require Import ZArith Bool List Reals Lia Lra Psatz.
From Flocq Require Import Core IEEE754.BinarySingleNaN.
From Verif Require Import Base F64 F64Facts F64Err Num NumLink Coordinate_model Orientation_spec Orientation_proofs
  Distance_model Distance_spec Distance_proofs Distance_float Distance_props DistanceErr_proofs.
Import ListNotations.
Local Open Scope R_scope.

(** The three determinants of the code. *)
Definition denv (a b c d : pR) : R := (px b - px a) * (py d - py c) - (py b - py a) * (px d - px c).
Definition rnv (a b c d : pR) : R := (py a - py c) * (px d - px c) - (px a - px c) * (py d - py c).
Definition snv (a b c d : pR) : R := (py a - py c) * (px b - px a) - (px a - px c) * (py b - py a).

(** ** Segments that meet *)
(** If an end of one is close to the line of the other, some end is close to the other segment. *)
Lemma near_line_0 a b c d s t E : 0 <= E -> c <> d -> 0 <= s <= 1 -> 0 <= t <= 1 -> along a b s = along c d t ->
  Rabs (rnv a b c d) <= E * dist c d -> dotv a c d <= dist c d * dist c d ->
  (exists q, on_segment c d q /\ dist a q <= E) \/ (exists q, on_segment a b q /\ dist c q <= E).
Proof.
  intros E0 Cd Hs Ht X Hr Hn.
  assert (L0 : 0 < dist c d). { pose proof (dist_pos c d). destruct (Req_dec (dist c d) 0) as [Z|Z]; [apply dist_0 in Z; contradiction|lra]. }
  set (L := dist c d) in *. assert (LL : 0 < L * L) by nra.
  assert (Rr : rnv a b c d * rnv a b c d <= E * L * (E * L)).
  { assert (Q : forall r, r * r = Rabs r * Rabs r) by (intros r; rewrite <- Rabs_mult; symmetry; apply Rabs_pos_eq; nra).
    rewrite Q. apply Rmult_le_compat; auto using Rabs_pos. }
  set (w1 := px d - px c) in *. set (w2 := py d - py c) in *.
  assert (EL : L * L = w1 * w1 + w2 * w2) by (unfold L, w1, w2; rewrite dist_sq'; ring).
  set (n := dotv a c d) in *. set (r := rnv a b c d) in *.
  assert (En : n = (px a - px c) * w1 + (py a - py c) * w2) by reflexivity.
  assert (Er : r = (py a - py c) * w1 - (px a - px c) * w2) by reflexivity.
  (* a point z with projection at c or on the segment *)
  assert (K : forall q z1 z2, (z1 * w1 + z2 * w2 = 0) -> z2 * w1 - z1 * w2 = q -> q * q <= r * r -> z1 * z1 + z2 * z2 <= E * E).
  { intros q z1 z2 H1 H2 H3. apply Rmult_le_reg_r with (L * L); [exact LL|].
    replace ((z1 * z1 + z2 * z2) * (L * L)) with ((z1 * w1 + z2 * w2) * (z1 * w1 + z2 * w2) + (z2 * w1 - z1 * w2) * (z2 * w1 - z1 * w2))
      by (rewrite EL; ring).
    rewrite H1, H2. lra. }
  destruct (Rle_dec 0 n) as [n0|n0].
  - left. exists (along c d (n / (L * L))).
    assert (TN : n / (L * L) * (L * L) = n) by (field; lra).
    set (k := n / (L * L)) in *.
    split.
    + exists k. split; [|reflexivity]. split; [unfold k; apply Rmult_le_pos; [exact n0|apply Rlt_le, Rinv_0_lt_compat, LL]|].
      apply Rmult_le_reg_r with (L * L); [exact LL|]. lra.
    + apply sq_le; [exact E0|]. rewrite dist_sq'. unfold along. cbn [px py]. fold w1 w2.
      apply (K r); [|rewrite Er; ring|lra].
      replace ((px a - (px c + k * w1)) * w1 + (py a - (py c + k * w2)) * w2) with (n - k * (w1 * w1 + w2 * w2)) by (rewrite En; ring).
      rewrite <- EL. lra.
  - right. apply Rnot_le_lt in n0.
    assert (P0 : 0 < t * (L * L) - n) by (assert (0 <= t * (L * L)) by nra; lra).
    set (k := - n / (t * (L * L) - n)).
    assert (Hk : k * (t * (L * L) - n) = - n) by (unfold k; field; lra).
    assert (K0 : 0 <= k) by (unfold k; apply Rmult_le_pos; [lra|apply Rlt_le, Rinv_0_lt_compat, P0]).
    assert (K1 : k <= 1) by (apply Rmult_le_reg_r with (t * (L * L) - n); [exact P0|]; assert (0 <= t * (L * L)) by nra; lra).
    exists (along a b (k * s)). split; [exists (k * s); split; [nra|reflexivity]|].
    unfold along in X. injection X as X1 X2. fold w1 in X1. fold w2 in X2.
    rewrite dist_sym. apply sq_le; [exact E0|]. rewrite dist_sq'. unfold along. cbn [px py].
    replace (px a + k * s * (px b - px a) - px c) with ((1 - k) * (px a - px c) + k * (t * w1)).
    2:{ replace (k * s * (px b - px a)) with (k * (px a + s * (px b - px a)) - k * px a) by ring. rewrite X1. ring. }
    replace (py a + k * s * (py b - py a) - py c) with ((1 - k) * (py a - py c) + k * (t * w2)).
    2:{ replace (k * s * (py b - py a)) with (k * (py a + s * (py b - py a)) - k * py a) by ring. rewrite X2. ring. }
    apply (K ((1 - k) * r)).
    + replace (((1 - k) * (px a - px c) + k * (t * w1)) * w1 + ((1 - k) * (py a - py c) + k * (t * w2)) * w2)
        with ((1 - k) * n + k * (t * (w1 * w1 + w2 * w2))) by (rewrite En; ring).
      rewrite <- EL. lra.
    + rewrite Er. ring.
    + replace ((1 - k) * r * ((1 - k) * r)) with ((1 - k) * (1 - k) * (r * r)) by ring. assert (0 <= r * r) by nra.
      assert ((1 - k) * (1 - k) <= 1) by nra. nra.
Qed.
Lemma along_flip a b t : along b a (1 - t) = along a b t.
Proof. unfold along. f_equal; ring. Qed.
Lemma rnv_flip_2 a b c d : rnv a b d c = - rnv a b c d.
Proof. unfold rnv. ring. Qed.
Lemma rnv_flip_1 a b c d : rnv b a c d = rnv a b c d - denv a b c d.
Proof. unfold rnv, denv. ring. Qed.
Lemma rnv_swap a b c d : rnv c d a b = - snv a b c d.
Proof. unfold rnv, snv. ring. Qed.
Lemma rnv_swap_flip a b c d : rnv d c a b = denv a b c d - snv a b c d.
Proof. unfold rnv, snv, denv. ring. Qed.

(** Some end of one is within [E] of the other segment. *)
Definition end_near (E : R) (a b c d : pR) : Prop :=
  (exists q, on_segment c d q /\ dist a q <= E) \/ (exists q, on_segment c d q /\ dist b q <= E) \/
  (exists q, on_segment a b q /\ dist c q <= E) \/ (exists q, on_segment a b q /\ dist d q <= E).
Lemma near_line_a a b c d s t E : 0 <= E -> c <> d -> 0 <= s <= 1 -> 0 <= t <= 1 -> along a b s = along c d t ->
  Rabs (rnv a b c d) <= E * dist c d -> end_near E a b c d.
Proof.
  intros E0 Cd Hs Ht X Hr. destruct (Rle_dec (dotv a c d) (dist c d * dist c d)) as [N|N].
  - destruct (near_line_0 a b c d s t E E0 Cd Hs Ht X Hr N) as [H|H]; [now left|right; right; now left].
  - assert (X' : along a b s = along d c (1 - t)) by now rewrite along_flip.
    assert (Hr' : Rabs (rnv a b d c) <= E * dist d c) by now rewrite rnv_flip_2, Rabs_Ropp, dist_sym.
    assert (N' : dotv a d c <= dist d c * dist d c).
    { rewrite dot_flip, (dist_sym d c). pose proof (dist_pos c d). nra. }
    destruct (near_line_0 a b d c s (1 - t) E E0 (not_eq_sym Cd) Hs ltac:(lra) X' Hr' N') as [(q & Q & H)|H].
    + left. exists q. split; [now apply segment_flip|exact H].
    + right; right; now right.
Qed.
Lemma near_line a b c d s t E : 0 <= E -> a <> b -> c <> d -> 0 <= s <= 1 -> 0 <= t <= 1 -> along a b s = along c d t ->
  Rabs (rnv a b c d) <= E * dist c d \/ Rabs (rnv a b c d - denv a b c d) <= E * dist c d \/
  Rabs (snv a b c d) <= E * dist a b \/ Rabs (snv a b c d - denv a b c d) <= E * dist a b ->
  end_near E a b c d.
Proof.
  intros E0 Ab Cd Hs Ht X [H|[H|[H|H]]].
  - now apply (near_line_a a b c d s t).
  - assert (G : end_near E b a c d).
    { apply (near_line_a b a c d (1 - s) t); auto; [lra|now rewrite along_flip|now rewrite rnv_flip_1]. }
    destruct G as [G|[G|[(q & Q & G)|(q & Q & G)]]]; [right; now left|now left|right; right; left|right; right; right];
      (exists q; split; [now apply segment_flip|exact G]).
  - assert (G : end_near E c d a b).
    { apply (near_line_a c d a b t s); auto. now rewrite rnv_swap, Rabs_Ropp. }
    destruct G as [G|[G|[G|G]]]; unfold end_near; tauto.
  - assert (G : end_near E d c a b).
    { apply (near_line_a d c a b (1 - t) s); auto; [lra|now rewrite along_flip|]. rewrite rnv_swap_flip, Rabs_minus_sym. exact H. }
    destruct G as [G|[G|[(q & Q & G)|(q & Q & G)]]]; [right; right; now right|right; right; now left|left|right; left];
      (exists q; split; [now apply segment_flip|exact G]).
Qed.

(** ** Segments that do not meet *)
(** A nearest point cannot be improved by moving along the segment. *)
Lemma no_better P Q T : (forall e, 0 < e <= 1 -> dist P Q <= dist (along P T e) Q) ->
  (px Q - px P) * (px T - px P) + (py Q - py P) * (py T - py P) <= 0.
Proof.
  intros H. set (g := (px Q - px P) * (px T - px P) + (py Q - py P) * (py T - py P)).
  apply Rnot_lt_le. intros g0. set (N := (px T - px P) * (px T - px P) + (py T - py P) * (py T - py P)).
  assert (N0 : 0 <= N) by (unfold N; apply Rplus_le_le_0_compat; apply Rle_0_sqr).
  set (e := Rmin 1 (g / (N + 1))).
  assert (Eg : g / (N + 1) * (N + 1) = g) by (field; lra).
  assert (Eg0 : 0 < g / (N + 1)) by (apply Rdiv_lt_0_compat; lra).
  assert (He : 0 < e <= 1) by (unfold e, Rmin; destruct (Rle_dec 1 (g / (N + 1))); lra).
  assert (He2 : e * N <= g).
  { assert (e <= g / (N + 1)) by (unfold e; apply Rmin_r). assert (e * (N + 1) <= g / (N + 1) * (N + 1)) by (apply Rmult_le_compat_r; lra). lra. }
  specialize (H e He). pose proof (dist_pos P Q) as D0.
  assert (D1 : dist P Q * dist P Q <= dist (along P T e) Q * dist (along P T e) Q) by (apply Rmult_le_compat; assumption).
  rewrite !dist_sq' in D1. unfold along in D1. cbn [px py] in D1.
  assert (D2 : 0 <= - 2 * e * g + e * (e * N)).
  { unfold g, N. lra. }
  assert (e * (e * N) <= e * g) by (apply Rmult_le_compat_l; lra).
  assert (0 < e * g) by nra. lra.
Qed.
(** At two ends. *)
Lemma corner V W r y x l m del E : 0 <= E -> 0 < x -> 0 < l -> 0 < m -> 0 <= V -> 0 <= W ->
  r * r + W * W = x * x * (l * l) -> y * y + V * V = x * x * (m * m) -> x * x * del = - V * r - y * W ->
  - (E * l) <= r -> r - del <= E * l -> - (E * m) <= y -> y - del <= E * m -> Rabs r <= E * l /\ Rabs y <= E * m.
Proof.
  assert (K : forall V W r y x l m del E, 0 <= E -> 0 < x -> 0 < l -> 0 < m -> 0 <= V -> 0 <= W ->
    r * r + W * W = x * x * (l * l) -> y * y + V * V = x * x * (m * m) -> x * x * del = - V * r - y * W ->
    r - del <= E * l -> - (E * m) <= y -> r <= E * l).
  { clear. intros V W r y x l m del E E0 x0 l0 m0 V0 W0 R1 Y1 De H1 H2.
    apply Rnot_lt_le. intros C. assert (El : 0 <= E * l) by nra. assert (Em : 0 <= E * m) by nra.
    assert (D0 : del <= 0).
    { apply Rnot_lt_le. intros D. assert (0 < x * x * del) by (apply Rmult_lt_0_compat; nra).
      assert (y < 0) by (apply Rnot_le_lt; intros y0; assert (0 <= y * W) by nra; assert (0 <= V * r) by nra; lra).
      assert (VW : - y * W <= V * r).
      { assert (A : - y * l <= r * m).
        { assert (- y * l <= E * m * l) by (apply Rmult_le_compat_r; lra). assert (E * l * m <= r * m) by (apply Rmult_le_compat_r; lra). lra. }
        assert (B : W * m <= V * l).
        { apply sq_le; [nra|]. replace (W * m * (W * m)) with ((W * W) * (m * m)) by ring. replace (V * l * (V * l)) with ((V * V) * (l * l)) by ring.
          replace (W * W) with (x * x * (l * l) - r * r) by lra. replace (V * V) with (x * x * (m * m) - y * y) by lra.
          assert ((- y * l) * (- y * l) <= (r * m) * (r * m)) by (apply Rmult_le_compat; nra). lra. }
        assert (G : (- y * l) * (W * m) <= (r * m) * (V * l)) by (apply Rmult_le_compat; nra).
        apply Rmult_le_reg_r with (l * m); [nra|]. lra. }
      lra. }
    lra. }
  intros E0 x0 l0 m0 V0 W0 R1 Y1 De A1 A2 B1 B2.
  pose proof (K V W r y x l m del E E0 x0 l0 m0 V0 W0 R1 Y1 De A2 B1) as Kr.
  pose proof (K W V y r x m l del E E0 x0 m0 l0 W0 V0 Y1 R1 ltac:(lra) B2 A1) as Ky.
  split; apply Rabs_le; lra.
Qed.
(** Points seen from [P] within 45 degrees of a direction keep to one side in the larger ordinate. *)
Lemma cone n1 n2 v1 v2 : Rabs n2 <= n1 -> Rabs (n1 * v2 - n2 * v1) <= n1 * v1 + n2 * v2 -> 0 < n1 -> 0 <= v1.
Proof.
  intros N C N0. assert (H : (n1 * n1 + n2 * n2) * v1 = n1 * (n1 * v1 + n2 * v2) - n2 * (n1 * v2 - n2 * v1)) by ring.
  set (p := n1 * v1 + n2 * v2) in *. set (q := n1 * v2 - n2 * v1) in *. pose proof (Rabs_pos q).
  assert (n2 * q <= Rabs n2 * Rabs q) by (rewrite <- Rabs_mult; apply Rle_abs).
  assert (Rabs n2 * Rabs q <= n1 * p) by (apply Rmult_le_compat; auto using Rabs_pos).
  assert (0 <= (n1 * n1 + n2 * n2) * v1) by lra. assert (0 < n1 * n1 + n2 * n2) by nra.
  apply Rnot_lt_le. intros V. nra.
Qed.
Lemma box_no a b c d : (px a < px c /\ px a < px d /\ px b < px c /\ px b < px d) \/ (px c < px a /\ px d < px a /\ px c < px b /\ px d < px b) \/
  (py a < py c /\ py a < py d /\ py b < py c /\ py b < py d) \/ (py c < py a /\ py d < py a /\ py c < py b /\ py d < py b) ->
  g_intersects_4 R NR a b c d = false.
Proof.
  intros H. unfold g_intersects_4. cbn [NR nlt nmin nmax]. unfold Rmin, Rmax.
  repeat match goal with |- context [Rle_dec ?x ?y] => destruct (Rle_dec x y) end;
  repeat match goal with |- context [Rlt_bool ?x ?y] => destruct (Rlt_bool_spec x y) end; try reflexivity; exfalso;
  destruct H as [H|[H|[H|H]]]; lra.
Qed.

Lemma dist_pos_ne a b : a <> b -> 0 < dist a b.
Proof. intros N. pose proof (dist_pos a b). destruct (Req_dec (dist a b) 0) as [Z|Z]; [apply dist_0 in Z; contradiction|lra]. Qed.
Lemma false_meet a b c d x E sg : sg = 1 \/ sg = -1 -> 0 <= E -> a <> b -> c <> d ->
  least_distance (on_segment a b) (on_segment c d) x -> g_intersects_4 R NR a b c d = true ->
  - (E * dist c d) <= sg * rnv a b c d -> sg * (rnv a b c d - denv a b c d) <= E * dist c d ->
  - (E * dist a b) <= sg * snv a b c d -> sg * (snv a b c d - denv a b c d) <= E * dist a b -> x <= 2 * E.
Proof.
  intros Sg E0 Ab Cd [(P & Q & (s & Hs & ->) & (t & Ht & ->) & Ex) Lo] Bx A1 A2 B1 B2.
  pose proof (dist_pos_ne a b Ab) as m0. pose proof (dist_pos_ne c d Cd) as l0.
  set (m := dist a b) in *. set (l := dist c d) in *.
  destruct (Rle_dec x (2 * E)) as [|C]; [assumption|exfalso]. apply Rnot_le_lt in C.
  assert (x0 : 0 < x) by lra.
  set (v1 := px b - px a) in *. set (v2 := py b - py a) in *. set (w1 := px d - px c) in *. set (w2 := py d - py c) in *.
  assert (Em : m * m = v1 * v1 + v2 * v2) by (unfold m, v1, v2; rewrite dist_sq'; ring).
  assert (El : l * l = w1 * w1 + w2 * w2) by (unfold l, w1, w2; rewrite dist_sq'; ring).
  set (P1 := px a + s * v1). set (P2 := py a + s * v2). set (Q1 := px c + t * w1). set (Q2 := py c + t * w2).
  set (n1 := Q1 - P1). set (n2 := Q2 - P2).
  assert (Exx : x * x = n1 * n1 + n2 * n2).
  { rewrite <- Ex, dist_sq'. unfold along, n1, n2, Q1, Q2, P1, P2, v1, v2, w1, w2. cbn [px py]. ring. }
  set (nv := n1 * v1 + n2 * v2). set (nw := n1 * w1 + n2 * w2).
  (* no improvement along either segment *)
  assert (Fv : forall k, 0 <= k <= 1 -> (k - s) * nv <= 0).
  { intros k Hk. pose proof (no_better (along a b s) (along c d t) (along a b k)) as H.
    replace ((k - s) * nv) with ((px (along c d t) - px (along a b s)) * (px (along a b k) - px (along a b s)) +
      (py (along c d t) - py (along a b s)) * (py (along a b k) - py (along a b s)))
      by (unfold along, nv, n1, n2, Q1, Q2, P1, P2, v1, v2, w1, w2; cbn [px py]; ring).
    apply H. intros e He. rewrite Ex. apply Lo; [|exists t; split; [exact Ht|reflexivity]].
    exists (s + e * (k - s)). split; [nra|]. unfold along. cbn [px py]. f_equal; ring. }
  assert (Fw : forall k, 0 <= k <= 1 -> 0 <= (k - t) * nw).
  { intros k Hk. pose proof (no_better (along c d t) (along a b s) (along c d k)) as H.
    assert (G : - ((k - t) * nw) <= 0); [|lra].
    replace (- ((k - t) * nw)) with ((px (along a b s) - px (along c d t)) * (px (along c d k) - px (along c d t)) +
      (py (along a b s) - py (along c d t)) * (py (along c d k) - py (along c d t)))
      by (unfold along, nw, n1, n2, Q1, Q2, P1, P2, v1, v2, w1, w2; cbn [px py]; ring).
    apply H. intros e He. rewrite dist_sym, Ex, dist_sym. apply Lo; [exists s; split; [exact Hs|reflexivity]|].
    exists (t + e * (k - t)). split; [nra|]. unfold along. cbn [px py]. f_equal; ring. }
  pose proof (Fv 0 ltac:(lra)) as Fv0. pose proof (Fv 1 ltac:(lra)) as Fv1.
  pose proof (Fw 0 ltac:(lra)) as Fw0. pose proof (Fw 1 ltac:(lra)) as Fw1.
  set (r := sg * (n1 * w2 - n2 * w1)). set (y := sg * (n1 * v2 - n2 * v1)). set (del := sg * denv a b c d).
  assert (Sg2 : sg * sg = 1) by (destruct Sg as [-> | ->]; ring).
  assert (Rr : sg * rnv a b c d = r + s * del).
  { unfold r, del, rnv, denv, n1, n2, Q1, Q2, P1, P2, v1, v2, w1, w2. ring. }
  assert (Ry : sg * snv a b c d = y + t * del).
  { unfold y, del, snv, denv, n1, n2, Q1, Q2, P1, P2, v1, v2, w1, w2. ring. }
  rewrite Rmult_minus_distr_l, Rr in A2. rewrite Rmult_minus_distr_l, Ry in B2. rewrite Rr in A1. rewrite Ry in B1. fold del in A2, B2.
  assert (Dl : x * x * del = nv * r - y * nw).
  { rewrite Exx. unfold del, nv, nw, r, y, denv. fold v1 v2 w1 w2. ring. }
  assert (R2 : r * r + nw * nw = x * x * (l * l)).
  { rewrite Exx, El. unfold r, nw. replace (sg * (n1 * w2 - n2 * w1) * (sg * (n1 * w2 - n2 * w1))) with (sg * sg * ((n1 * w2 - n2 * w1) * (n1 * w2 - n2 * w1))) by ring.
    rewrite Sg2. ring. }
  assert (Y2 : y * y + nv * nv = x * x * (m * m)).
  { rewrite Exx, Em. unfold y, nv. replace (sg * (n1 * v2 - n2 * v1) * (sg * (n1 * v2 - n2 * v1))) with (sg * sg * ((n1 * v2 - n2 * v1) * (n1 * v2 - n2 * v1))) by ring.
    rewrite Sg2. ring. }
  assert (xx : 0 < x * x) by nra.
  assert (Dneg : forall z, z <= 0 -> x * x * del = z -> del <= 0).
  { intros z Z Hz. apply Rmult_le_reg_l with (x * x); [exact xx|]. lra. }
  (* the nearest points are both ends *)
  destruct (Req_dec nv 0) as [Zv|Zv].
  { rewrite Zv, Rmult_0_r, Rplus_0_r in Y2.
    assert (Ya : Rabs y = x * m).
    { rewrite <- (Rabs_pos_eq (x * m)) by nra. apply Rsqr_eq_abs_0. unfold Rsqr. lra. }
    rewrite Zv, Rmult_0_l in Dl. assert (Em0 : 0 <= E * m) by nra.
    assert (G : Rabs y <= E * m).
    { apply Rabs_le. split.
      - destruct (Rle_dec 0 y) as [|yn]; [lra|]. destruct (Req_dec t 0) as [->|tn]; [lra|].
        assert (nw <= 0) by nra. assert (D0 : del <= 0) by (apply (Dneg (0 - y * nw)); [nra|exact Dl]). nra.
      - destruct (Rle_dec y 0) as [|yp]; [lra|]. destruct (Req_dec t 1) as [->|tn]; [lra|].
        assert (0 <= nw) by nra. assert (D0 : del <= 0) by (apply (Dneg (0 - y * nw)); [nra|exact Dl]). nra. }
    rewrite Ya in G. assert (x <= E) by (apply Rmult_le_reg_r with m; assumption). lra. }
  destruct (Req_dec nw 0) as [Zw|Zw].
  { rewrite Zw, Rmult_0_r, Rplus_0_r in R2.
    assert (Ra : Rabs r = x * l).
    { rewrite <- (Rabs_pos_eq (x * l)) by (apply Rmult_le_pos; lra). apply Rsqr_eq_abs_0. unfold Rsqr. lra. }
    rewrite Zw, Rmult_0_r, Rminus_0_r in Dl. assert (El0 : 0 <= E * l) by (apply Rmult_le_pos; lra).
    assert (G : Rabs r <= E * l).
    { apply Rabs_le. split.
      - destruct (Rle_dec 0 r) as [|rn]; [lra|]. destruct (Req_dec s 0) as [->|sn]; [lra|].
        assert (0 <= nv) by nra. assert (D0 : del <= 0) by (apply (Dneg (nv * r)); [nra|exact Dl]). nra.
      - destruct (Rle_dec r 0) as [|rp]; [lra|]. destruct (Req_dec s 1) as [->|sn]; [lra|].
        assert (nv <= 0) by nra. assert (D0 : del <= 0) by (apply (Dneg (nv * r)); [nra|exact Dl]). nra. }
    rewrite Ra in G. assert (x <= E) by (apply Rmult_le_reg_r with l; assumption). lra. }
  (* both are within E of the line through the ends *)
  assert (G : Rabs r <= E * l /\ Rabs y <= E * m).
  { assert (Ss : (s = 0 /\ nv < 0) \/ (s = 1 /\ 0 < nv)).
    { destruct (Rlt_le_dec nv 0) as [N|N]; [left|right]; (split; [|lra]); nra. }
    assert (St : (t = 0 /\ 0 < nw) \/ (t = 1 /\ nw < 0)).
    { destruct (Rlt_le_dec nw 0) as [N|N]; [right|left]; (split; [|lra]); nra. }
    destruct Ss as [(-> & Nv)|(-> & Nv)]; destruct St as [(-> & Nw)|(-> & Nw)].
    - apply (corner (- nv) nw r y x l m del E); lra.
    - rewrite <- (Rabs_Ropp y). apply (corner (- nv) (- nw) r (- y) x l m del E); lra.
    - rewrite <- (Rabs_Ropp r). apply (corner nv nw (- r) y x l m del E); lra.
    - rewrite <- (Rabs_Ropp r), <- (Rabs_Ropp y). apply (corner nv (- nw) (- r) (- y) x l m del E); lra. }
  destruct G as (Gr & Gy).
  assert (Sga : Rabs sg = 1) by (destruct Sg as [-> | ->]; [apply Rabs_R1|rewrite Rabs_left; lra]).
  assert (Ar : Rabs (n1 * w2 - n2 * w1) <= Rabs nw).
  { assert (Er : Rabs (n1 * w2 - n2 * w1) = Rabs r) by (unfold r; rewrite Rabs_mult, Sga; ring).
    rewrite Er. apply Rsqr_le_abs_0. unfold Rsqr.
    assert (r * r <= E * l * (E * l)).
    { replace (r * r) with (Rabs r * Rabs r) by (rewrite <- Rabs_mult; apply Rabs_pos_eq; apply (Rle_0_sqr r)). apply Rmult_le_compat; auto using Rabs_pos. }
    assert (4 * (E * l * (E * l)) <= x * x * (l * l)).
    { replace (4 * (E * l * (E * l))) with ((2 * E) * (2 * E) * (l * l)) by ring. apply Rmult_le_compat_r; [apply (Rle_0_sqr l)|]. apply Rmult_le_compat; lra. }
    assert (0 <= E * l * (E * l)) by apply (Rle_0_sqr (E * l)). lra. }
  assert (Ay : Rabs (n1 * v2 - n2 * v1) <= Rabs nv).
  { assert (Er : Rabs (n1 * v2 - n2 * v1) = Rabs y) by (unfold y; rewrite Rabs_mult, Sga; ring).
    rewrite Er. apply Rsqr_le_abs_0. unfold Rsqr.
    assert (y * y <= E * m * (E * m)).
    { replace (y * y) with (Rabs y * Rabs y) by (rewrite <- Rabs_mult; apply Rabs_pos_eq; apply (Rle_0_sqr y)). apply Rmult_le_compat; auto using Rabs_pos. }
    assert (4 * (E * m * (E * m)) <= x * x * (m * m)).
    { replace (4 * (E * m * (E * m))) with ((2 * E) * (2 * E) * (m * m)) by ring. apply Rmult_le_compat_r; [apply (Rle_0_sqr m)|]. apply Rmult_le_compat; lra. }
    assert (0 <= E * m * (E * m)) by apply (Rle_0_sqr (E * m)). lra. }
  (* so the boxes are apart *)
  assert (Cw : forall k, 0 <= k <= 1 -> Rabs (n1 * ((k - t) * w2) - n2 * ((k - t) * w1)) <= n1 * ((k - t) * w1) + n2 * ((k - t) * w2)).
  { intros k Hk. replace (n1 * ((k - t) * w1) + n2 * ((k - t) * w2)) with ((k - t) * nw) by (unfold nw; ring).
    rewrite <- (Rabs_pos_eq ((k - t) * nw)) by auto.
    replace (n1 * ((k - t) * w2) - n2 * ((k - t) * w1)) with ((k - t) * (n1 * w2 - n2 * w1)) by ring.
    rewrite !Rabs_mult. apply Rmult_le_compat_l; [apply Rabs_pos|exact Ar]. }
  assert (Cv : forall k, 0 <= k <= 1 -> Rabs (n1 * ((s - k) * v2) - n2 * ((s - k) * v1)) <= n1 * ((s - k) * v1) + n2 * ((s - k) * v2)).
  { intros k Hk. replace (n1 * ((s - k) * v1) + n2 * ((s - k) * v2)) with ((s - k) * nv) by (unfold nv; ring).
    assert (0 <= (s - k) * nv) by (pose proof (Fv k Hk); lra).
    rewrite <- (Rabs_pos_eq ((s - k) * nv)) by assumption.
    replace (n1 * ((s - k) * v2) - n2 * ((s - k) * v1)) with ((s - k) * (n1 * v2 - n2 * v1)) by ring.
    rewrite !Rabs_mult. apply Rmult_le_compat_l; [apply Rabs_pos|exact Ay]. }
  pose proof (Cw 0 ltac:(lra)) as Cw0. pose proof (Cw 1 ltac:(lra)) as Cw1.
  pose proof (Cv 0 ltac:(lra)) as Cv0. pose proof (Cv 1 ltac:(lra)) as Cv1.
  assert (Box : g_intersects_4 R NR a b c d = false); [|congruence]. clear Bx.
  apply box_no.
  assert (Pa1 : px a = P1 - (s - 0) * v1) by (unfold P1; ring). assert (Pb1 : px b = P1 - (s - 1) * v1) by (unfold P1, v1; ring).
  assert (Pa2 : py a = P2 - (s - 0) * v2) by (unfold P2; ring). assert (Pb2 : py b = P2 - (s - 1) * v2) by (unfold P2, v2; ring).
  assert (Qc1 : px c = Q1 + (0 - t) * w1) by (unfold Q1; ring). assert (Qd1 : px d = Q1 + (1 - t) * w1) by (unfold Q1, w1; ring).
  assert (Qc2 : py c = Q2 + (0 - t) * w2) by (unfold Q2; ring). assert (Qd2 : py d = Q2 + (1 - t) * w2) by (unfold Q2, w2; ring).
  assert (N1 : n1 = Q1 - P1) by reflexivity. assert (N2 : n2 = Q2 - P2) by reflexivity.
  assert (Ce1 : forall n1 n2 z1 z2, Rabs n2 <= - n1 -> Rabs (n1 * z2 - n2 * z1) <= n1 * z1 + n2 * z2 -> 0 < - n1 -> 0 <= - z1).
  { intros k1 k2 z1 z2 H1 H2 H3. apply (cone (- k1) (- k2) (- z1) (- z2)); [now rewrite Rabs_Ropp| |exact H3].
    replace (- k1 * - z2 - - k2 * - z1) with (k1 * z2 - k2 * z1) by ring. lra. }
  assert (Sw : forall n1 n2 z1 z2, Rabs (n1 * z2 - n2 * z1) <= n1 * z1 + n2 * z2 -> Rabs (n2 * z1 - n1 * z2) <= n2 * z2 + n1 * z1).
  { intros k1 k2 z1 z2 H. rewrite Rabs_minus_sym. lra. }
  destruct (Rle_dec (Rabs n2) (Rabs n1)) as [Big|Big].
  - assert (Nz : n1 <> 0). { intros Z. rewrite Z, Rabs_R0 in Big. assert (n2 = 0) by (apply Rabs_eq_R0; pose proof (Rabs_pos n2); lra). rewrite Z, H in Exx. lra. }
    destruct (Rlt_le_dec 0 n1) as [Pos|Neg].
    + rewrite (Rabs_pos_eq n1) in Big by lra. left.
      pose proof (cone _ _ _ _ Big Cw0 Pos). pose proof (cone _ _ _ _ Big Cw1 Pos).
      pose proof (cone _ _ _ _ Big Cv0 Pos). pose proof (cone _ _ _ _ Big Cv1 Pos). lra.
    + rewrite (Rabs_left1 n1) in Big by lra. right; left. assert (Pos : 0 < - n1) by lra.
      pose proof (Ce1 _ _ _ _ Big Cw0 Pos). pose proof (Ce1 _ _ _ _ Big Cw1 Pos).
      pose proof (Ce1 _ _ _ _ Big Cv0 Pos). pose proof (Ce1 _ _ _ _ Big Cv1 Pos). lra.
  - apply Rnot_le_lt in Big. apply Rlt_le in Big.
    assert (Nz : n2 <> 0). { intros Z. rewrite Z, Rabs_R0 in Big. assert (n1 = 0) by (apply Rabs_eq_R0; pose proof (Rabs_pos n1); lra). rewrite Z, H in Exx. lra. }
    apply Sw in Cw0, Cw1, Cv0, Cv1.
    destruct (Rlt_le_dec 0 n2) as [Pos|Neg].
    + rewrite (Rabs_pos_eq n2) in Big by lra. right; right; left.
      pose proof (cone _ _ _ _ Big Cw0 Pos). pose proof (cone _ _ _ _ Big Cw1 Pos).
      pose proof (cone _ _ _ _ Big Cv0 Pos). pose proof (cone _ _ _ _ Big Cv1 Pos). lra.
    + rewrite (Rabs_left1 n2) in Big by lra. right; right; right. assert (Pos : 0 < - n2) by lra.
      pose proof (Ce1 _ _ _ _ Big Cw0 Pos). pose proof (Ce1 _ _ _ _ Big Cw1 Pos).
      pose proof (Ce1 _ _ _ _ Big Cv0 Pos). pose proof (Ce1 _ _ _ _ Big Cv1 Pos). lra.
Qed.

(** ** In doubles *)
Lemma minmax_R x y : fis_finite x = true -> fis_finite y = true ->
  (fis_finite (fmin x y) = true /\ R_of (fmin x y) = Rmin (R_of x) (R_of y)) /\
  (fis_finite (fmax x y) = true /\ R_of (fmax x y) = Rmax (R_of x) (R_of y)).
Proof.
  intros X Y. pose proof (nn_finite _ X) as Nx. pose proof (nn_finite _ Y) as Ny. unfold nn in Nx, Ny.
  unfold fmin, fmax. rewrite Nx, Ny. unfold fgtb. rewrite !fltb_R by assumption. unfold Rmin, Rmax.
  destruct (Rle_dec (R_of x) (R_of y)) as [L|L]; destruct (Rlt_bool_spec (R_of x) (R_of y)) as [L1|L1];
    destruct (Rlt_bool_spec (R_of y) (R_of x)) as [L2|L2]; try lra; repeat split; try assumption; lra.
Qed.
Definition finp (c : Coordinate) : Prop := fis_finite (cx c) = true /\ fis_finite (cy c) = true.
Lemma box_f hypot a b c d : finp a -> finp b -> finp c -> finp d ->
  g_intersects_4 f64 (NF hypot) (pf a) (pf b) (pf c) (pf d) = g_intersects_4 R NR (rpt a) (rpt b) (rpt c) (rpt d).
Proof.
  intros (Ax & Ay) (Bx & By) (Cx & Cy) (Dx & Dy). unfold g_intersects_4. cbn [NF NR nmin nmax nlt pf rpt px py].
  destruct (minmax_R _ _ Cx Dx) as ((F1 & E1) & (F2 & E2)). destruct (minmax_R _ _ Ax Bx) as ((F3 & E3) & (F4 & E4)).
  destruct (minmax_R _ _ Cy Dy) as ((F5 & E5) & (F6 & E6)). destruct (minmax_R _ _ Ay By) as ((F7 & E7) & (F8 & E8)).
  rewrite !fltb_R by assumption. rewrite E1, E2, E3, E4, E5, E6, E7, E8. reflexivity.
Qed.
(** Comparing a quotient with 0 and 1, overflow included. *)
Lemma fdiv_sign n d : fis_finite n = true -> fis_finite d = true -> R_of d <> 0 ->
  (fis_finite (fdiv n d) = true /\ R_of (fdiv n d) = RN (R_of n / R_of d)) \/
  (exists s, fdiv n d = B754_infinity s /\ bp 1 <= Rabs (R_of n / R_of d) /\ (s = true <-> R_of n / R_of d < 0)).
Proof.
  intros Fn Fd Zd. set (q := R_of n / R_of d).
  destruct (Rlt_le_dec (Rabs (RN q)) (bp 1024)) as [S|S].
  - left. now apply fdiv_R.
  - right. pose proof (Bdiv_correct 53 1024 _ _ mode_NE n d Zd) as C.
    change (round radix2 (SpecFloat.fexp 53 1024) (round_mode mode_NE) (B2R n / B2R d)) with (RN q) in C.
    rewrite Rlt_bool_false in C by exact S.
    assert (Big : bp 1 <= Rabs q).
    { apply Rnot_lt_le. intros H. apply Rlt_le in H. apply (RN_abs_le 1) in H; [|lia].
      assert (bp 1 < bp 1024) by (apply bpow_lt; lia). lra. }
    exists (xorb (Bsign n) (Bsign d)). split.
    + apply B2SF_inj. exact C.
    + split; [exact Big|]. assert (Zn : R_of n <> 0).
      { intros Z. unfold q in Big. rewrite Z in Big. unfold Rdiv in Big. rewrite Rmult_0_l, Rabs_R0 in Big. pose proof (bpow_gt_0 radix2 1). lra. }
      assert (K : forall z, fis_finite z = true -> R_of z <> 0 -> (Bsign z = true /\ R_of z < 0) \/ (Bsign z = false /\ 0 < R_of z)).
      { intros [s|s| |s m e B] Fz Zz; try discriminate; [exfalso; now apply Zz|]. destruct s; [left|right]; (split; [reflexivity|]).
        - apply F2R_lt_0. reflexivity.
        - apply F2R_gt_0. reflexivity. }
      destruct (K n Fn Zn) as [(-> & Hn)|(-> & Hn)]; destruct (K d Fd Zd) as [(-> & Hd)|(-> & Hd)]; cbn [xorb]; unfold q, Rdiv.
      * split; [discriminate|]. intros H. assert (/ R_of d < 0) by now apply Rinv_lt_0_compat. nra.
      * split; [|reflexivity]. intros _. assert (0 < / R_of d) by now apply Rinv_0_lt_compat. nra.
      * split; [|reflexivity]. intros _. assert (/ R_of d < 0) by now apply Rinv_lt_0_compat. nra.
      * split; [discriminate|]. intros H. assert (0 < / R_of d) by now apply Rinv_0_lt_compat. nra.
Qed.
Lemma fdiv_cmp n d : fis_finite n = true -> fis_finite d = true -> R_of d <> 0 ->
  let q := R_of n / R_of d in
  (fltb (fdiv n d) (fofZ 0) = true -> q < 0) /\ (fltb (fofZ 1) (fdiv n d) = true -> 1 < q) /\
  (fltb (fdiv n d) (fofZ 0) = false -> fltb (fofZ 1) (fdiv n d) = false -> - (2 * eta) <= q <= 1 + 2 * u53).
Proof.
  intros Fn Fd Zd. cbv zeta. destruct fofZ_0 as (F0 & R0). destruct fofZ_1 as (F1 & R1). pose proof u53_pos as U. pose proof u53_small as Us.
  assert (E0 : 0 < eta) by apply bpow_gt_0.
  assert (E1 : eta <= u53 / 1024). { replace (u53 / 1024) with (u53 * bp (-10)) by (change (bp (-10)) with (/ 1024); field). unfold eta. rewrite <- !bpow_plus. apply bpow_le. lia. }
  destruct (fdiv_sign n d Fn Fd Zd) as [(Fq & Eq)|(s & Eq & Big & Sg)]; set (q := R_of n / R_of d) in *.
  - rewrite !fltb_R, R0, R1, Eq by assumption. pose proof (RN_err q) as Rq. fold eta in Rq. split; [|split].
    + destruct (Rlt_bool_spec (RN q) 0) as [H|H]; [|discriminate]. intros _. apply Rnot_le_lt. intros Q. pose proof (RN_ge0 q Q). lra.
    + destruct (Rlt_bool_spec 1 (RN q)) as [H|H]; [|discriminate]. intros _. apply Rnot_le_lt. intros Q.
      assert (RN q <= 1); [|lra]. rewrite <- (RN_id 1) by (change 1 with (bp 0); apply bpow_fmt; lia). apply round_le; try typeclasses eauto. exact Q.
    + destruct (Rlt_bool_spec (RN q) 0) as [H|H]; [discriminate|]. destruct (Rlt_bool_spec 1 (RN q)) as [H'|H']; [discriminate|]. intros _ _.
      apply Rabs_le_inv in Rq. destruct (Rle_dec 0 q) as [q0|q0].
      * rewrite (Rabs_pos_eq q q0) in Rq. split; [lra|]. nra.
      * rewrite (Rabs_left q) in Rq by lra. split; [|lra]. nra.
  - rewrite Eq. change (bp 1) with 2 in Big. destruct s; (split; [|split]).
    + intros _. now apply Sg.
    + intros H. vm_compute in H. discriminate.
    + intros H. vm_compute in H. discriminate.
    + intros H. vm_compute in H. discriminate.
    + intros _. assert (~ q < 0) by (intros H; apply Sg in H; discriminate). rewrite Rabs_pos_eq in Big by lra. lra.
    + intros _ H. vm_compute in H. discriminate.
Qed.

Definition diff_of (x : f64) (X : R) : Prop := bf 471 x /\ ru (R_of x) X /\ (X = 0 \/ bp (-440) <= Rabs X).
Lemma ru_0 x : ru x 0 -> x = 0.
Proof. unfold ru. rewrite Rabs_R0, Rmult_0_r, Rminus_0_r. intros H. apply Rabs_eq_R0. pose proof (Rabs_pos x). lra. Qed.
Lemma hyp_zero_or H X Y : 0 <= H -> H * H = X * X + Y * Y -> (X = 0 \/ bp (-440) <= Rabs X) -> (Y = 0 \/ bp (-440) <= Rabs Y) ->
  (X = 0 /\ Y = 0 /\ H = 0) \/ bp (-440) <= H.
Proof.
  intros H0 E Zx Zy. pose proof (bpow_gt_0 radix2 (-440)) as B0.
  assert (K : forall r s, bp (-440) <= Rabs r -> H * H = r * r + s * s -> bp (-440) <= H).
  { intros r s Hr Hs. apply sq_le; [exact H0|]. assert (bp (-440) * bp (-440) <= r * r).
    { replace (r * r) with (Rabs r * Rabs r) by (rewrite <- Rabs_mult; apply Rabs_pos_eq; nra). apply Rmult_le_compat; lra. }
    nra. }
  destruct Zx as [->|Zx]; [|right; now apply (K X Y)]. destruct Zy as [->|Zy]; [|right; apply (K Y 0); [exact Zy|lra]].
  left. split; [reflexivity|]. split; [reflexivity|]. nra.
Qed.
Lemma det_f x y v w X Y V W H L : diff_of x X -> diff_of y Y -> diff_of v V -> diff_of w W ->
  0 <= H -> 0 <= L -> H * H = X * X + Y * Y -> L * L = V * V + W * W ->
  fis_finite (fsub (fmul x v) (fmul y w)) = true /\
  Rabs (R_of (fsub (fmul x v) (fmul y w)) - (X * V - Y * W)) <= 6 * u53 * (H * L).
Proof.
  intros (Bx & Rx & Zx) (By & Ry & Zy) (Bv & Rv & Zv) (Bw & Rw & Zw) H0 L0 EH EL.
  destruct (prods_f _ _ _ _ Bx By Bv Bw) as (_ & (Fd & Ed)). split; [exact Fd|]. rewrite Ed.
  destruct (hyp_zero_or H X Y H0 EH Zx Zy) as [(X0 & Y0 & Hz)|HH].
  { subst X Y. apply ru_0 in Rx, Ry. rewrite Rx, Ry, !Rmult_0_l, !RN_0, Rminus_0_r, RN_0, Rminus_0_r, Rabs_R0, Hz. lra. }
  destruct (hyp_zero_or L V W L0 EL Zv Zw) as [(V0 & W0 & Lz)|LL].
  { subst V W. apply ru_0 in Rv, Rw. rewrite Rv, Rw, !Rmult_0_r, !RN_0, Rminus_0_r, RN_0, Rminus_0_r, Rabs_R0, Lz. lra. }
  destruct (ru_dot _ _ _ _ _ _ _ _ H L Rx Ry Rv Rw H0 L0 EH EL (eta_small _ _ HH LL)) as (_ & G). exact G.
Qed.

Lemma min_err E x y r q : Rabs (R_of x - r) <= E -> Rabs (R_of y - q) <= E -> fis_finite x = true -> fis_finite y = true ->
  fis_finite (if fltb y x then y else x) = true /\
  Rabs (R_of (if fltb y x then y else x) - (if Rlt_bool q r then q else r)) <= E.
Proof.
  intros X Y Fx Fy. rewrite fltb_R by assumption. apply Rabs_le_inv in X, Y.
  destruct (Rlt_bool_spec (R_of y) (R_of x)); destruct (Rlt_bool_spec q r); (split; [assumption|]); apply Rabs_le; lra.
Qed.
Lemma min4_err hypot E x1 x2 x3 x4 r1 r2 r3 r4 :
  fis_finite x1 = true -> fis_finite x2 = true -> fis_finite x3 = true -> fis_finite x4 = true ->
  Rabs (R_of x1 - r1) <= E -> Rabs (R_of x2 - r2) <= E -> Rabs (R_of x3 - r3) <= E -> Rabs (R_of x4 - r4) <= E ->
  fis_finite (g_min4 f64 (NF hypot) x1 x2 x3 x4) = true /\
  Rabs (R_of (g_min4 f64 (NF hypot) x1 x2 x3 x4) - g_min4 R NR r1 r2 r3 r4) <= E.
Proof.
  intros F1 F2 F3 F4 E1 E2 E3 E4. unfold g_min4. cbn [NF NR nlt].
  destruct (min_err E _ _ _ _ E1 E2 F1 F2) as (G1 & H1).
  destruct (min_err E _ _ _ _ H1 E3 G1 F3) as (G2 & H2).
  apply (min_err E _ _ _ _ H2 E4 G2 F4).
Qed.
(** All four points within [M] of each other. *)
Definition spread4 (M : R) (a b c d : pR) : Prop :=
  dist a b <= M /\ dist c d <= M /\ dist a c <= M /\ dist b c <= M /\ dist a d <= M.
Lemma mid_finp c : mid_pt c -> finp c.
Proof. intros (X & Y). split; now apply mid_fin'. Qed.
Lemma mid_diff_of x y : mid x -> mid y -> diff_of (fsub x y) (R_of x - R_of y).
Proof. exact (mid_diff x y). Qed.
(** The quotient test gone wrong in either direction. *)
Lemma test_miss B den den' n n' : Rabs (den' - den) <= B -> Rabs (n' - n) <= B -> den <> 0 -> 0 <= n / den <= 1 ->
  den' = 0 \/ (den' <> 0 /\ (n' / den' < 0 \/ 1 < n' / den')) -> Rabs n <= 2 * B \/ Rabs (n - den) <= 2 * B.
Proof.
  intros Ed En Zd Hq Bad. apply Rabs_le_inv in Ed, En.
  assert (Qn : n / den * den = n) by (field; exact Zd). set (q := n / den) in *.
  assert (S : (0 < den /\ 0 <= n <= den) \/ (den < 0 /\ den <= n <= 0)).
  { destruct (Rlt_le_dec 0 den) as [P|P]; [left|right]; (split; [lra|]); rewrite <- Qn; split; nra. }
  destruct Bad as [Z|(Z & Bad)].
  - left. apply Rabs_le. lra.
  - assert (Qn' : n' / den' * den' = n') by (field; exact Z). set (q' := n' / den') in *.
    destruct (Rlt_le_dec 0 den') as [P|P]; destruct Bad as [Bad|Bad].
    + assert (n' < 0) by (rewrite <- Qn'; nra). left. apply Rabs_le. lra.
    + assert (den' < n') by (rewrite <- Qn'; nra). destruct S as [(S1 & S2)|(S1 & S2)].
      * right. apply Rabs_le. lra.
      * left. apply Rabs_le. lra.
    + assert (0 < n') by (rewrite <- Qn'; nra). left. apply Rabs_le. lra.
    + assert (n' < den') by (rewrite <- Qn'; nra). destruct S as [(S1 & S2)|(S1 & S2)].
      * left. apply Rabs_le. lra.
      * right. apply Rabs_le. lra.
Qed.
Lemma test_hit B den den' n n' sg : 0 <= B -> sg * den' = Rabs den' -> sg * sg = 1 -> Rabs (den' - den) <= B -> Rabs (n' - n) <= B -> den' <> 0 ->
  2 * eta * Rabs den' <= B -> 2 * u53 * Rabs den' <= B ->
  - (2 * eta) <= n' / den' <= 1 + 2 * u53 -> - (2 * B) <= sg * n /\ sg * (n - den) <= 3 * B.
Proof.
  intros B0 Sd Sg Ed En Zd T1 T2 (Q1 & Q2).
  assert (Qn : n' / den' * den' = n') by (field; exact Zd). set (q := n' / den') in *.
  assert (P : 0 < Rabs den') by now apply Rabs_pos_lt.
  assert (Sn : sg * n' = q * Rabs den') by (rewrite <- Qn, <- Sd; ring).
  assert (A1 : - (2 * eta) * Rabs den' <= q * Rabs den') by (apply Rmult_le_compat_r; lra).
  assert (A2 : q * Rabs den' <= (1 + 2 * u53) * Rabs den') by (apply Rmult_le_compat_r; lra).
  assert (Sa : sg = 1 \/ sg = -1). { assert ((sg - 1) * (sg + 1) = 0) by lra. apply Rmult_integral in H. lra. }
  apply Rabs_le_inv in Ed, En. destruct Sa as [-> | ->]; split; lra.
Qed.
Lemma eta_u53 : 2 * eta <= 2 * u53.
Proof. assert (H : eta <= u53) by (unfold eta; apply bpow_le; lia). lra. Qed.
Lemma s2s_f hypot a b c d x M : hypot_accurate hypot -> mid_pt a -> mid_pt b -> mid_pt c -> mid_pt d ->
  spread4 M (rpt a) (rpt b) (rpt c) (rpt d) ->
  least_distance (on_segment (rpt a) (rpt b)) (on_segment (rpt c) (rpt d)) x ->
  fis_finite (segment_to_segment hypot a b c d) = true /\ Rabs (R_of (segment_to_segment hypot a b c d) - x) <= 64 * u53 * M.
Proof.
  intros Hh Ma Mb Mc Md (Mab & Mcd & Mac & Mbc & Mad) Lx. pose proof u53_pos as U. pose proof u53_small as Us.
  assert (M0 : 0 <= M) by (pose proof (dist_pos (rpt a) (rpt b)); lra). assert (UM : 0 <= u53 * M) by nra.
  assert (W : forall p q r v, mid_pt p -> mid_pt q -> mid_pt r -> least_distance (eq (rpt p)) (on_segment (rpt q) (rpt r)) v -> dist (rpt p) (rpt q) <= M ->
    fis_finite (point_to_segment hypot p q r) = true /\ Rabs (R_of (point_to_segment hypot p q r) - v) <= 32 * u53 * M).
  { intros p q r v Mp Mq Mr Lv Hd. destruct (p2s_f hypot p q r v Hh Mp Mq Mr Lv) as (F1 & E1). split; [exact F1|].
    eapply Rle_trans; [exact E1|]. apply Rmult_le_compat_l; lra. }
  destruct (mid_finp a Ma) as (Fax & Fay). destruct (mid_finp b Mb) as (Fbx & Fby).
  destruct (mid_finp c Mc) as (Fcx & Fcy). destruct (mid_finp d Md) as (Fdx & Fdy).
  unfold segment_to_segment, g_segment_to_segment, g_equals. cbn [NF neq].
  change (px (pf a)) with (cx a). change (py (pf a)) with (cy a). change (px (pf b)) with (cx b). change (py (pf b)) with (cy b).
  change (px (pf c)) with (cx c). change (py (pf c)) with (cy c). change (px (pf d)) with (cx d). change (py (pf d)) with (cy d).
  change (g_point_to_segment f64 (NF hypot) (pf a) (pf c) (pf d)) with (point_to_segment hypot a c d).
  change (g_point_to_segment f64 (NF hypot) (pf b) (pf c) (pf d)) with (point_to_segment hypot b c d).
  change (g_point_to_segment f64 (NF hypot) (pf c) (pf a) (pf b)) with (point_to_segment hypot c a b).
  change (g_point_to_segment f64 (NF hypot) (pf d) (pf a) (pf b)) with (point_to_segment hypot d a b).
  destruct (feqb (cx a) (cx b) && feqb (cy a) (cy b)) eqn:Qa.
  { apply feqb_pt in Qa; try assumption. rewrite <- Qa in Lx.
    destruct (W a c d x Ma Mc Md) as (F1 & E1); [|exact Mac|split; [exact F1|lra]].
    eapply least_ext; [| |exact Lx]; [|reflexivity]. intros p. split.
    - intros (t & _ & ->). symmetry. apply along_same.
    - intros <-. apply seg_l. }
  assert (Ab : rpt a <> rpt b) by (intros E; apply feqb_pt in E; try assumption; congruence).
  destruct (feqb (cx c) (cx d) && feqb (cy c) (cy d)) eqn:Qc.
  { apply feqb_pt in Qc; try assumption. rewrite Qc in Lx.
    destruct (W d a b x Md Ma Mb) as (F1 & E1); [|rewrite dist_sym; exact Mad|split; [exact F1|lra]].
    apply least_sym. eapply least_ext; [| |exact Lx]; [reflexivity|]. intros p. split.
    - intros (t & _ & ->). symmetry. apply along_same.
    - intros <-. apply seg_l. }
  assert (Cd : rpt c <> rpt d) by (intros E; apply feqb_pt in E; try assumption; congruence).
  clear Qa Qc.
  (* the four end distances *)
  destruct (W a c d _ Ma Mc Md (p2s_least _ _ _) Mac) as (F1 & E1).
  destruct (W b c d _ Mb Mc Md (p2s_least _ _ _) Mbc) as (F2 & E2).
  destruct (W c a b _ Mc Ma Mb (p2s_least _ _ _) ltac:(rewrite dist_sym; exact Mac)) as (F3 & E3).
  destruct (W d a b _ Md Ma Mb (p2s_least _ _ _) ltac:(rewrite dist_sym; exact Mad)) as (F4 & E4).
  pose proof (min4_err hypot (32 * u53 * M) _ _ _ _ _ _ _ _ F1 F2 F3 F4 E1 E2 E3 E4) as (Fm & Em).
  pose proof (min4R_spec (g_point_to_segment R NR (rpt a) (rpt c) (rpt d)) (g_point_to_segment R NR (rpt b) (rpt c) (rpt d))
    (g_point_to_segment R NR (rpt c) (rpt a) (rpt b)) (g_point_to_segment R NR (rpt d) (rpt a) (rpt b))) as Ms.
  set (mf := g_min4 f64 (NF hypot) _ _ _ _) in *.
  set (m := g_min4 R NR _ _ _ _) in *. cbv zeta in Ms. destruct Ms as (M1 & M2 & M3 & M4 & Mo).
  assert (m0 : 0 <= m) by (destruct Mo as [-> | [-> | [-> | ->]]]; apply p2s_nonneg).
  (* what the segments' distance is *)
  assert (Xm : (exists s t, 0 <= s <= 1 /\ 0 <= t <= 1 /\ along (rpt a) (rpt b) s = along (rpt c) (rpt d) t /\
      denv (rpt a) (rpt b) (rpt c) (rpt d) <> 0 /\ s = rnv (rpt a) (rpt b) (rpt c) (rpt d) / denv (rpt a) (rpt b) (rpt c) (rpt d) /\
      t = snv (rpt a) (rpt b) (rpt c) (rpt d) / denv (rpt a) (rpt b) (rpt c) (rpt d) /\ x = 0) \/ x = m).
  { set (A := rpt a) in *. set (B := rpt b) in *. set (C := rpt c) in *. set (D := rpt d) in *.
    assert (NAb : ~ (px A = px B /\ py A = py B)) by (intros (e1 & e2); apply Ab; destruct A, B; cbn in *; congruence).
    assert (Dec : {denv A B C D <> 0 /\ 0 <= rnv A B C D / denv A B C D <= 1 /\ 0 <= snv A B C D / denv A B C D <= 1} +
      {denv A B C D = 0 \/ (denv A B C D <> 0 /\ ~ (0 <= rnv A B C D / denv A B C D <= 1 /\ 0 <= snv A B C D / denv A B C D <= 1))}).
    { destruct (Req_EM_T (denv A B C D) 0) as [Z|Z]; [right; now left|].
      set (r := rnv A B C D / denv A B C D). set (s := snv A B C D / denv A B C D).
      destruct (Rle_dec 0 r); [|right; right; split; [exact Z|lra]]. destruct (Rle_dec r 1); [|right; right; split; [exact Z|lra]].
      destruct (Rle_dec 0 s); [|right; right; split; [exact Z|lra]]. destruct (Rle_dec s 1); [|right; right; split; [exact Z|lra]].
      left. auto. }
    destruct Dec as [(Z & Hr & Hs)|No].
    - left. eexists _, _. split; [exact Hr|]. split; [exact Hs|].
      assert (Me : along A B (rnv A B C D / denv A B C D) = along C D (snv A B C D / denv A B C D)).
      { apply dist_0. apply (meet_zero A B C D Z); reflexivity. }
      split; [exact Me|]. split; [exact Z|]. split; [reflexivity|]. split; [reflexivity|].
      destruct Lx as ((p & q & _ & _ & <-) & Lo). apply Rle_antisym; [|apply dist_pos].
      eapply Rle_trans; [apply (Lo (along A B (rnv A B C D / denv A B C D)) (along C D (snv A B C D / denv A B C D)))|].
      + eexists. split; [exact Hr|reflexivity].
      + eexists. split; [exact Hs|reflexivity].
      + rewrite Me. apply Req_le, dist_0. reflexivity.
    - right. apply (least_unique _ _ _ _ Lx). split; [apply m_attained|].
      intros p q (s & Hs & ->) (t & Ht & ->).
      destruct No as [Z|(Z & No)]; [now apply m_parallel|now apply m_skew]. }
  rewrite (box_f hypot a b c d) by (split; assumption).
  destruct (g_intersects_4 R NR (rpt a) (rpt b) (rpt c) (rpt d)) eqn:Bx; cbn [negb].
  2:{ (* boxes apart *)
      split; [exact Fm|]. destruct Xm as [(s & t & Hs & Ht & Me & _)| ->].
      - rewrite (boxes_apart _ _ _ _ s t Hs Ht Me) in Bx. discriminate.
      - lra. }
  cbn [ndiv nadd nmul nsub nle nlt neq nofZ NF].
  set (df := fsub (fmul (fsub (cx b) (cx a)) _) _). set (rf := fsub (fmul (fsub (cy a) (cy c)) (fsub (cx d) (cx c))) _).
  set (sf := fsub (fmul (fsub (cy a) (cy c)) (fsub (cx b) (cx a))) _).
  destruct Ma as (Ax & Ay), Mb as (Bx' & By), Mc as (Cx & Cy), Md as (Dx & Dy).
  pose proof (mid_diff_of _ _ Bx' Ax) as V1. pose proof (mid_diff_of _ _ By Ay) as V2.
  pose proof (mid_diff_of _ _ Dx Cx) as W1. pose proof (mid_diff_of _ _ Dy Cy) as W2.
  pose proof (mid_diff_of _ _ Ax Cx) as T1. pose proof (mid_diff_of _ _ Ay Cy) as T2.
  set (mu := dist (rpt a) (rpt b)) in *. set (la := dist (rpt c) (rpt d)) in *. set (ka := dist (rpt a) (rpt c)) in *.
  pose proof (dist_pos_ne _ _ Ab) as mu0. pose proof (dist_pos_ne _ _ Cd) as la0. fold mu in mu0. fold la in la0.
  assert (ka0 : 0 <= ka) by apply dist_pos.
  set (v1 := R_of (cx b) - R_of (cx a)) in *. set (v2 := R_of (cy b) - R_of (cy a)) in *.
  set (w1 := R_of (cx d) - R_of (cx c)) in *. set (w2 := R_of (cy d) - R_of (cy c)) in *.
  set (t1 := R_of (cx a) - R_of (cx c)) in *. set (t2 := R_of (cy a) - R_of (cy c)) in *.
  assert (Emu : mu * mu = v1 * v1 + v2 * v2) by (unfold mu; rewrite dist_sq'; cbn [rpt px py]; unfold v1, v2; ring).
  assert (Ela : la * la = w2 * w2 + w1 * w1) by (unfold la; rewrite dist_sq'; cbn [rpt px py]; unfold w1, w2; ring).
  assert (Eka : ka * ka = t2 * t2 + t1 * t1) by (unfold ka; rewrite dist_sq'; cbn [rpt px py]; unfold t1, t2; ring).
  destruct (det_f _ _ _ _ _ _ _ _ mu la V1 V2 W2 W1 (Rlt_le _ _ mu0) (Rlt_le _ _ la0) Emu Ela) as (Fdf & Ed). fold df in Fdf, Ed.
  destruct (det_f _ _ _ _ _ _ _ _ ka la T2 T1 W1 W2 ka0 (Rlt_le _ _ la0) Eka ltac:(lra)) as (Frf & Er). fold rf in Frf, Er.
  destruct (det_f _ _ _ _ _ _ _ _ ka mu T2 T1 V1 V2 ka0 (Rlt_le _ _ mu0) Eka Emu) as (Fsf & Es). fold sf in Fsf, Es.
  change (v1 * w2 - v2 * w1) with (denv (rpt a) (rpt b) (rpt c) (rpt d)) in Ed.
  change (t2 * w1 - t1 * w2) with (rnv (rpt a) (rpt b) (rpt c) (rpt d)) in Er.
  change (t2 * v1 - t1 * v2) with (snv (rpt a) (rpt b) (rpt c) (rpt d)) in Es.
  set (den := denv _ _ _ _) in *. set (rn := rnv _ _ _ _) in *. set (sn := snv _ _ _ _) in *.
  set (Bl := 6 * u53 * M * la). set (Bm := 6 * u53 * M * mu).
  assert (P : forall k z, 0 <= z -> k <= M -> 6 * u53 * (k * z) <= 6 * u53 * M * z).
  { intros k z Z K. rewrite (Rmult_assoc (6 * u53) M z). apply Rmult_le_compat_l; [lra|]. apply Rmult_le_compat_r; lra. }
  assert (Edl : Rabs (R_of df - den) <= Bl) by (eapply Rle_trans; [exact Ed|apply P; lra]).
  assert (Edm : Rabs (R_of df - den) <= Bm) by (eapply Rle_trans; [exact Ed|rewrite (Rmult_comm mu la); apply P; lra]).
  assert (Erl : Rabs (R_of rf - rn) <= Bl) by (eapply Rle_trans; [exact Er|apply P; lra]).
  assert (Esm : Rabs (R_of sf - sn) <= Bm) by (eapply Rle_trans; [exact Es|apply P; lra]).
  assert (Bl0 : 0 <= Bl) by (unfold Bl; nra). assert (Bm0 : 0 <= Bm) by (unfold Bm; nra).
  destruct fofZ_0 as (F0 & R0).
  assert (Miss : df = df -> (R_of df = 0 \/ (R_of df <> 0 /\ (R_of rf / R_of df < 0 \/ 1 < R_of rf / R_of df \/ R_of sf / R_of df < 0 \/ 1 < R_of sf / R_of df))) ->
    fis_finite mf = true /\ Rabs (R_of mf - x) <= 64 * u53 * M).
  { intros _ Bad. split; [exact Fm|]. destruct Xm as [(s & t & Hs & Ht & Me & Zd & Es' & Et' & ->)| ->]; [|lra].
    fold den rn sn in Zd, Es', Et'. rewrite Es' in Hs. rewrite Et' in Ht.
    assert (Nr : end_near (12 * u53 * M) (rpt a) (rpt b) (rpt c) (rpt d)).
    { apply (near_line _ _ _ _ s t); auto; [lra|now rewrite Es'|now rewrite Et'|]. fold rn sn den mu la.
      replace (12 * u53 * M * la) with (2 * Bl) by (unfold Bl; ring). replace (12 * u53 * M * mu) with (2 * Bm) by (unfold Bm; ring).
      destruct Bad as [Z|(Z & [Bd|[Bd|[Bd|Bd]]])].
      - destruct (test_miss Bl den (R_of df) rn (R_of rf) Edl Erl Zd Hs) as [H|H]; auto.
      - destruct (test_miss Bl den (R_of df) rn (R_of rf) Edl Erl Zd Hs) as [H|H]; auto.
      - destruct (test_miss Bl den (R_of df) rn (R_of rf) Edl Erl Zd Hs) as [H|H]; auto.
      - destruct (test_miss Bm den (R_of df) sn (R_of sf) Edm Esm Zd Ht) as [H|H]; auto.
      - destruct (test_miss Bm den (R_of df) sn (R_of sf) Edm Esm Zd Ht) as [H|H]; auto. }
    assert (Mm : m <= 12 * u53 * M).
    { destruct Nr as [(q & Q & H)|[(q & Q & H)|[(q & Q & H)|(q & Q & H)]]].
      - pose proof (p2s_le (rpt a) _ _ _ Q). lra.
      - pose proof (p2s_le (rpt b) _ _ _ Q). lra.
      - pose proof (p2s_le (rpt c) _ _ _ Q). lra.
      - pose proof (p2s_le (rpt d) _ _ _ Q). lra. }
    apply Rabs_le_inv in Em. apply Rabs_le. lra. }
  rewrite (feqb_R _ _ Fdf F0), R0. destruct (Req_bool_spec (R_of df) 0) as [Zd|Zd]; [apply Miss; auto|].
  destruct (fdiv_cmp rf df Frf Fdf Zd) as (C1 & C2 & C3). destruct (fdiv_cmp sf df Fsf Fdf Zd) as (C4 & C5 & C6).
  destruct (fltb (fdiv rf df) (fofZ 0)) eqn:K1; [apply Miss; [reflexivity|right; split; [exact Zd|left; auto]]|].
  destruct (fltb (fofZ 1) (fdiv rf df)) eqn:K2; [apply Miss; [reflexivity|right; split; [exact Zd|right; left; auto]]|].
  destruct (fltb (fdiv sf df) (fofZ 0)) eqn:K3; [apply Miss; [reflexivity|right; split; [exact Zd|right; right; left; auto]]|].
  destruct (fltb (fofZ 1) (fdiv sf df)) eqn:K4; [apply Miss; [reflexivity|right; split; [exact Zd|right; right; right; auto]]|].
  cbn [orb]. split; [exact F0|]. rewrite R0.
  (* the code sees a common point *)
  assert (X2 : x <= 2 * (18 * u53 * M)).
  { set (sg := if Rlt_bool 0 (R_of df) then 1 else -1).
    assert (Sd : sg * R_of df = Rabs (R_of df)).
    { unfold sg. destruct (Rlt_bool_spec 0 (R_of df)); [rewrite Rabs_pos_eq; lra|rewrite Rabs_left1; lra]. }
    assert (Sa : sg = 1 \/ sg = -1) by (unfold sg; destruct (Rlt_bool 0 (R_of df)); auto).
    assert (Sq : sg * sg = 1) by (destruct Sa as [-> | ->]; ring).
    assert (Dd : Rabs (R_of df) <= 2 * (mu * la)).
    { assert (Dl : Rabs den <= mu * la).
      { apply sq_abs_le; [apply Rmult_le_pos; lra|]. replace (mu * la * (mu * la)) with ((mu * mu) * (la * la)) by ring. rewrite Emu, Ela.
        unfold den, denv. cbn [rpt px py]. fold v1 v2 w1 w2.
        pose proof (Rle_0_sqr (v1 * w1 + v2 * w2)) as Sq0. unfold Rsqr in Sq0. lra. }
      replace (R_of df) with ((R_of df - den) + den) by ring. eapply Rle_trans; [apply Rabs_triang|].
      assert (6 * u53 * (mu * la) <= 1 * (mu * la)) by (apply Rmult_le_compat_r; [apply Rmult_le_pos|pose proof u53_small]; lra). lra. }
    assert (U2 : forall z, 0 < z -> Rabs (R_of df) <= 2 * (M * z) -> 2 * eta * Rabs (R_of df) <= 6 * u53 * M * z /\ 2 * u53 * Rabs (R_of df) <= 6 * u53 * M * z).
    { intros z Z H. pose proof eta_u53 as Et.
      assert (G : 2 * u53 * Rabs (R_of df) <= 2 * u53 * (2 * (M * z))) by (apply Rmult_le_compat_l; lra).
      assert (0 <= u53 * (M * z)) by (apply Rmult_le_pos; [lra|apply Rmult_le_pos; lra]).
      assert (2 * eta * Rabs (R_of df) <= 2 * u53 * Rabs (R_of df)) by (apply Rmult_le_compat_r; [apply Rabs_pos|exact Et]). split; lra. }
    assert (Dl : Rabs (R_of df) <= 2 * (M * la)). { eapply Rle_trans; [exact Dd|]. apply Rmult_le_compat_l; [lra|]. apply Rmult_le_compat_r; lra. }
    assert (Dm : Rabs (R_of df) <= 2 * (M * mu)). { eapply Rle_trans; [exact Dd|]. rewrite (Rmult_comm mu la). apply Rmult_le_compat_l; [lra|]. apply Rmult_le_compat_r; lra. }
    destruct (U2 la la0 Dl) as (Tl1 & Tl2). destruct (U2 mu mu0 Dm) as (Tm1 & Tm2). fold Bl in Tl1, Tl2. fold Bm in Tm1, Tm2.
    destruct (test_hit Bl den (R_of df) rn (R_of rf) sg Bl0 Sd Sq Edl Erl Zd Tl1 Tl2 (C3 eq_refl eq_refl)) as (G1 & G2).
    destruct (test_hit Bm den (R_of df) sn (R_of sf) sg Bm0 Sd Sq Edm Esm Zd Tm1 Tm2 (C6 eq_refl eq_refl)) as (G3 & G4).
    apply (false_meet (rpt a) (rpt b) (rpt c) (rpt d) x (18 * u53 * M) sg Sa ltac:(lra) Ab Cd Lx Bx); fold rn sn den mu la;
      replace (18 * u53 * M * la) with (3 * Bl) by (unfold Bl; ring); replace (18 * u53 * M * mu) with (3 * Bm) by (unfold Bm; ring); lra. }
  assert (X0 : 0 <= x) by (destruct Lx as ((p & q & _ & _ & <-) & _); apply dist_pos).
  rewrite Rminus_0_l, Rabs_Ropp, Rabs_pos_eq by exact X0. lra.
Qed.
