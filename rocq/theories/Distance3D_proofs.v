(** Proofs for the distances in space, over the reals. *)
From Coq Require Import ZArith Bool Reals Lia Lra Psatz.
From Flocq Require Import Core.
From Verif Require Import Num Distance3D_model Distance3D_spec.
Local Open Scope R_scope.

Notation p2sR := (g_p2s_3d R NR 0).
Notation s2sR := (g_s2s_3d R NR 0).
Definition dot3 (a b c d : P3 R) : R := (qx b - qx a) * (qx d - qx c) + (qy b - qy a) * (qy d - qy c) + (qz b - qz a) * (qz d - qz c).
Definition sq3 (p q : P3 R) : R := (qx p - qx q)² + (qy p - qy q)² + (qz p - qz q)².

Lemma P3_ext (p q : P3 R) : qx p = qx q -> qy p = qy q -> qz p = qz q -> p = q.
Proof. destruct p, q. cbn. congruence. Qed.
Lemma sq3_pos p q : 0 <= sq3 p q.
Proof. unfold sq3. pose proof (Rle_0_sqr (qx p - qx q)). pose proof (Rle_0_sqr (qy p - qy q)). pose proof (Rle_0_sqr (qz p - qz q)). lra. Qed.
Lemma sq3_0 p q : sq3 p q = 0 -> p = q.
Proof.
  unfold sq3. pose proof (Rle_0_sqr (qx p - qx q)). pose proof (Rle_0_sqr (qy p - qy q)). pose proof (Rle_0_sqr (qz p - qz q)). intros E.
  apply P3_ext; apply Rminus_diag_uniq; apply Rsqr_0_uniq; lra.
Qed.
Lemma dist3_le p q r s : sq3 p q <= sq3 r s -> dist3 p q <= dist3 r s.
Proof. intros H. apply sqrt_le_1_alt. exact H. Qed.
Lemma dist3_le_inv p q r s : dist3 p q <= dist3 r s -> sq3 p q <= sq3 r s.
Proof. intros H. apply sqrt_le_0 in H; [exact H|apply sq3_pos|apply sq3_pos]. Qed.
Lemma dist3_sym p q : dist3 p q = dist3 q p.
Proof. unfold dist3. f_equal. unfold Rsqr. ring. Qed.
Lemma distance3_R p q : g_distance3 R NR p q = dist3 p q.
Proof. reflexivity. Qed.
Lemma equals_R p q : g_equals_3d R NR p q = true <-> p = q.
Proof.
  unfold g_equals_3d. cbn [NR neq nisnan]. rewrite andb_false_r, orb_false_r. rewrite !andb_true_iff. split.
  - intros ((A & B) & C). destruct (Req_bool_spec (qx p) (qx q)), (Req_bool_spec (qy p) (qy q)), (Req_bool_spec (qz p) (qz q)); try discriminate. now apply P3_ext.
  - intros <-. rewrite !Req_bool_true by reflexivity. auto.
Qed.
Lemma along3_0 a b : along3 a b 0 = a.
Proof. apply P3_ext; cbn; ring. Qed.
Lemma along3_1 a b : along3 a b 1 = b.
Proof. apply P3_ext; cbn; ring. Qed.
Lemma along3_same a t : along3 a a t = a.
Proof. apply P3_ext; cbn; ring. Qed.
Lemma on3_start a b : on_segment3 a b a.
Proof. exists 0. rewrite along3_0. split; [lra|reflexivity]. Qed.
Lemma on3_end a b : on_segment3 a b b.
Proof. exists 1. rewrite along3_1. split; [lra|reflexivity]. Qed.

(** Squared distance from a point to a point of a line. *)
Lemma sq_along p a b t : sq3 p (along3 a b t) = sq3 p a - 2 * t * dot3 a p a b + t * t * dot3 a b a b.
Proof. unfold sq3, along3, dot3, Rsqr. cbn [qx qy qz]. ring. Qed.
Lemma dot_self a b : dot3 a b a b = sq3 b a.
Proof. unfold dot3, sq3, Rsqr. ring. Qed.
Lemma dot_pos a b : a <> b -> 0 < dot3 a b a b.
Proof. intros N. rewrite dot_self. destruct (sq3_pos b a) as [H|H]; [exact H|]. symmetry in H. apply sq3_0 in H. congruence. Qed.

Lemma p2s_least3 p a b : least_distance3 (eq p) (on_segment3 a b) (p2sR p a b).
Proof.
  unfold g_p2s_3d. destruct (g_equals_3d R NR a b) eqn:E.
  - apply equals_R in E. subst b. rewrite distance3_R. split.
    + exists p, a. split; [reflexivity|]. split; [apply on3_start|reflexivity].
    + intros x q <- (t & Ht & ->). rewrite along3_same. lra.
  - assert (a <> b) as N by (intros ->; rewrite (proj2 (equals_R b b) eq_refl) in E; discriminate).
    cbn [NR nsub nmul nadd ndiv nle nofZ nisnan]. cbv zeta iota. rewrite !distance3_R.
    pose proof (dot_pos a b N) as L.
    change ((qx b - qx a) * (qx b - qx a) + (qy b - qy a) * (qy b - qy a) + (qz b - qz a) * (qz b - qz a)) with (dot3 a b a b).
    replace ((qx p - qx a) * (qx b - qx a) + (qy p - qy a) * (qy b - qy a) + (qz p - qz a) * (qz b - qz a)) with (dot3 a p a b) by (unfold dot3; ring).
    set (LL := dot3 a b a b) in *. set (n := dot3 a p a b). set (r := n / LL).
    assert (n = r * LL) as En by (unfold r; field; lra).
    assert (forall t0, (forall t, 0 <= t <= 1 -> 0 <= (t - t0) * (LL * (t + t0) - 2 * n)) -> forall q, on_segment3 a b q -> sq3 p (along3 a b t0) <= sq3 p q) as Min.
    { intros t0 H q (t & Ht & ->). specialize (H t Ht). rewrite !sq_along. fold n LL. lra. }
    destruct (Rle_bool_spec r 0) as [R0|R0]; [|destruct (Rle_bool_spec 1 r) as [R1|R1]].
    + split; [exists p, a; split; [reflexivity|]; split; [apply on3_start|reflexivity]|].
      intros x q <- Hq. apply dist3_le. rewrite <- (along3_0 a b). apply Min; [|exact Hq]. intros t Ht.
      rewrite En. replace ((t - 0) * (LL * (t + 0) - 2 * (r * LL))) with (t * LL * (t - 2 * r)) by ring. apply Rmult_le_pos; [|lra]. apply Rmult_le_pos; lra.
    + split; [exists p, b; split; [reflexivity|]; split; [apply on3_end|reflexivity]|].
      intros x q <- Hq. apply dist3_le. rewrite <- (along3_1 a b). apply Min; [|exact Hq]. intros t Ht.
      rewrite En. replace ((t - 1) * (LL * (t + 1) - 2 * (r * LL))) with ((1 - t) * LL * (2 * r - t - 1)) by ring. apply Rmult_le_pos; [|lra]. apply Rmult_le_pos; lra.
    + change (g_sqrt_sum R NR (qx p - (qx a + r * (qx b - qx a))) (qy p - (qy a + r * (qy b - qy a))) (qz p - (qz a + r * (qz b - qz a)))) with (dist3 p (along3 a b r)).
      split; [exists p, (along3 a b r); split; [reflexivity|]; split; [exists r; split; [lra|reflexivity]|reflexivity]|].
      intros x q <- Hq. apply dist3_le. apply Min; [|exact Hq]. intros t Ht.
      rewrite En. replace ((t - r) * (LL * (t + r) - 2 * (r * LL))) with (LL * ((t - r) * (t - r))) by ring. apply Rmult_le_pos; [lra|apply Rle_0_sqr].
Qed.

(** Squared distance between points of two lines. *)
Section Lines.
Variables a b c d : P3 R.
Let A := dot3 a b a b. Let B := dot3 a b c d. Let C := dot3 c d c d. Let D := dot3 a b c a. Let E := dot3 c d c a.
Definition f2sq s t := sq3 (along3 a b s) (along3 c d t).
Lemma f2_val s t : f2sq s t = sq3 a c + 2 * s * D - 2 * t * E + s * s * A - 2 * s * t * B + t * t * C.
Proof. unfold f2sq, sq3, along3, A, B, C, D, E, dot3, Rsqr. cbn [qx qy qz]. ring. Qed.
Lemma gram : 0 <= A * C - B * B.
Proof.
  unfold A, B, C, dot3. set (u1 := qx b - qx a). set (u2 := qy b - qy a). set (u3 := qz b - qz a).
  set (v1 := qx d - qx c). set (v2 := qy d - qy c). set (v3 := qz d - qz c).
  replace ((u1 * u1 + u2 * u2 + u3 * u3) * (v1 * v1 + v2 * v2 + v3 * v3) - (u1 * v1 + u2 * v2 + u3 * v3) * (u1 * v1 + u2 * v2 + u3 * v3))
    with ((u1 * v2 - u2 * v1)² + (u1 * v3 - u3 * v1)² + (u2 * v3 - u3 * v2)²) by (unfold Rsqr; ring).
  pose proof (Rle_0_sqr (u1 * v2 - u2 * v1)). pose proof (Rle_0_sqr (u1 * v3 - u3 * v1)). pose proof (Rle_0_sqr (u2 * v3 - u3 * v2)). lra.
Qed.
Lemma quad_pos x y : 0 <= A * x * x - 2 * B * x * y + C * y * y.
Proof.
  unfold A, B, C, dot3.
  replace (_ - _ + _) with (((qx b - qx a) * x - (qx d - qx c) * y)² + ((qy b - qy a) * x - (qy d - qy c) * y)² + ((qz b - qz a) * x - (qz d - qz c) * y)²) by (unfold Rsqr; ring).
  pose proof (Rle_0_sqr ((qx b - qx a) * x - (qx d - qx c) * y)). pose proof (Rle_0_sqr ((qy b - qy a) * x - (qy d - qy c) * y)). pose proof (Rle_0_sqr ((qz b - qz a) * x - (qz d - qz c) * y)). lra.
Qed.
(** A minimum of the lines' distance is a zero of both derivatives. *)
Definition critical s t := D + s * A - t * B = 0 /\ E + s * B - t * C = 0.
Lemma critical_min s t x y : critical s t -> f2sq x y = f2sq s t + (A * (x - s) * (x - s) - 2 * B * (x - s) * (y - t) + C * (y - t) * (y - t)).
Proof.
  intros (H1 & H2). rewrite !f2_val.
  replace (sq3 a c + 2 * x * D - 2 * y * E + x * x * A - 2 * x * y * B + y * y * C) with
    (sq3 a c + 2 * s * D - 2 * t * E + s * s * A - 2 * s * t * B + t * t * C + (A * (x - s) * (x - s) - 2 * B * (x - s) * (y - t) + C * (y - t) * (y - t))
     + 2 * (x - s) * (D + s * A - t * B) - 2 * (y - t) * (E + s * B - t * C)) by ring. rewrite H1, H2. ring.
Qed.
Lemma critical_least s t x y : critical s t -> f2sq s t <= f2sq x y.
Proof. intros H. rewrite (critical_min s t x y H). pose proof (quad_pos (x - s) (y - t)). lra. Qed.
Lemma min_critical s t : (forall x y, f2sq s t <= f2sq x y) -> critical s t.
Proof.
  intros H.
  assert (forall p q, 0 <= q -> (forall x, 0 <= 2 * x * p + x * x * q) -> p = 0) as Quad.
  { intros p q Hq K. destruct Hq as [Hq|<-].
    - specialize (K (- p / q)). replace (2 * (- p / q) * p + - p / q * (- p / q) * q) with (- (p * p) / q) in K by (field; lra).
      assert (p * p <= 0) as Z. { apply (Rmult_le_reg_r (/ q)); [now apply Rinv_0_lt_compat|]. unfold Rdiv in K. lra. }
      apply Rsqr_0_uniq. unfold Rsqr. pose proof (Rle_0_sqr p) as S. unfold Rsqr in S. lra.
    - pose proof (K (- p)). pose proof (Rle_0_sqr p) as S. unfold Rsqr in S. apply Rsqr_0_uniq. unfold Rsqr. lra. }
  split.
  - apply (Quad _ A); [unfold A; rewrite dot_self; apply sq3_pos|]. intros x. specialize (H (s + x) t). rewrite !f2_val in H. lra.
  - assert (- (E + s * B - t * C) = 0) as Z; [|lra].
    apply (Quad _ C); [unfold C; rewrite dot_self; apply sq3_pos|]. intros x. specialize (H s (t + x)). rewrite !f2_val in H. lra.
Qed.
Lemma critical_denom s t : critical s t -> s * (A * C - B * B) = B * E - C * D /\ t * (A * C - B * B) = A * E - B * D.
Proof.
  intros (H1 & H2). split.
  - replace (B * E - C * D) with (B * (E + s * B - t * C) - C * (D + s * A - t * B) + s * (A * C - B * B)) by ring. rewrite H1, H2. ring.
  - replace (A * E - B * D) with (A * (E + s * B - t * C) - B * (D + s * A - t * B) + t * (A * C - B * B)) by ring. rewrite H1, H2. ring.
Qed.
Lemma denom_critical : 0 < A * C - B * B -> critical ((B * E - C * D) / (A * C - B * B)) ((A * E - B * D) / (A * C - B * B)).
Proof. intros H. split; field; lra. Qed.
(** With s outside and t inside, the least value in the square is on the near
    edge. *)
Lemma edge_low s t x y : critical s t -> s < 0 -> 0 <= t <= 1 -> 0 <= x <= 1 -> 0 <= y <= 1 ->
  exists y', 0 <= y' <= 1 /\ f2sq 0 y' <= f2sq x y.
Proof.
  intros K Hs Ht Hx Hy. set (l := - s / (x - s)).
  assert (0 < x - s) as P by lra. assert (0 < / (x - s)) as I by (now apply Rinv_0_lt_compat).
  assert (0 <= l) as L0 by (apply Rmult_le_pos; lra).
  assert (l <= 1) as L1. { apply (Rmult_le_reg_r (x - s)); [exact P|]. unfold l, Rdiv. rewrite Rmult_assoc, Rinv_l by lra. lra. }
  exists (t + l * (y - t)). split.
  - assert (0 <= l * y <= 1 * y) by (split; [apply Rmult_le_pos; lra|apply Rmult_le_compat_r; lra]).
    assert (0 <= (1 - l) * t) by (apply Rmult_le_pos; lra). assert ((1 - l) * t <= (1 - l) * 1) by (apply Rmult_le_compat_l; lra).
    assert (l * y <= l * 1) by (apply Rmult_le_compat_l; lra). lra.
  - rewrite (critical_min s t 0 _ K), (critical_min s t x y K). apply Rplus_le_compat_l.
    replace (0 - s) with (l * (x - s)) by (unfold l; field; lra). replace (t + l * (y - t) - t) with (l * (y - t)) by ring.
    pose proof (quad_pos (x - s) (y - t)) as Q. set (q := A * (x - s) * (x - s) - 2 * B * (x - s) * (y - t) + C * (y - t) * (y - t)) in *.
    replace (A * (l * (x - s)) * (l * (x - s)) - 2 * B * (l * (x - s)) * (l * (y - t)) + C * (l * (y - t)) * (l * (y - t))) with (l * l * q) by (unfold q; ring).
    assert (l * l <= 1 * 1) by (apply Rmult_le_compat; lra). rewrite <- (Rmult_1_l q) at 2. apply Rmult_le_compat_r; lra.
Qed.
End Lines.

Lemma f2_swap a b c d s t : f2sq c d a b t s = f2sq a b c d s t.
Proof. unfold f2sq, sq3, Rsqr. ring. Qed.
Lemma f2_flip a b c d s t : f2sq b a c d (1 - s) t = f2sq a b c d s t.
Proof. unfold f2sq, sq3, along3, Rsqr. cbn [qx qy qz]. ring. Qed.
Lemma critical_swap a b c d s t : critical a b c d s t -> critical c d a b t s.
Proof. intros H. apply min_critical. intros x y. rewrite !(f2_swap a b c d). now apply critical_least. Qed.
Lemma critical_flip a b c d s t : critical a b c d s t -> critical b a c d (1 - s) t.
Proof.
  intros H. apply min_critical. intros x y. rewrite f2_flip. replace x with (1 - (1 - x)) by ring. rewrite f2_flip. now apply critical_least.
Qed.
Lemma p2s_edge a b c d :
  (exists y, 0 <= y <= 1 /\ p2sR a c d = sqrt (f2sq a b c d 0 y)) /\ (forall y, 0 <= y <= 1 -> p2sR a c d <= sqrt (f2sq a b c d 0 y)).
Proof.
  destruct (p2s_least3 a c d) as ((p & q & <- & (y & Hy & ->) & E) & H). split.
  - exists y. split; [exact Hy|]. rewrite <- E. unfold f2sq. now rewrite along3_0.
  - intros z Hz. unfold f2sq. rewrite along3_0. apply (H a (along3 c d z) eq_refl). now exists z.
Qed.
(** The least distance given by a bound on the square of parameters. *)
Lemma least_of a b c d r : (exists x y, 0 <= x <= 1 /\ 0 <= y <= 1 /\ r = sqrt (f2sq a b c d x y)) ->
  (forall x y, 0 <= x <= 1 -> 0 <= y <= 1 -> r <= sqrt (f2sq a b c d x y)) ->
  least_distance3 (on_segment3 a b) (on_segment3 c d) r.
Proof.
  intros (x & y & Hx & Hy & E) H. split.
  - exists (along3 a b x), (along3 c d y). split; [now exists x|]. split; [now exists y|]. symmetry. exact E.
  - intros p q (u & Hu & ->) (v & Hv & ->). now apply H.
Qed.
Lemma edge_least a b c d s t : critical a b c d s t -> s < 0 -> 0 <= t <= 1 ->
  least_distance3 (on_segment3 a b) (on_segment3 c d) (p2sR a c d).
Proof.
  intros K Hs Ht. destruct (p2s_edge a b c d) as ((y & Hy & E) & H). apply least_of.
  - exists 0, y. repeat split; try lra; exact E.
  - intros u v Hu Hv. destruct (edge_low a b c d s t u v K Hs Ht Hu Hv) as (y' & Hy' & L).
    eapply Rle_trans; [apply (H y' Hy')|]. now apply sqrt_le_1_alt.
Qed.
Lemma least_swap a b c d r : least_distance3 (on_segment3 c d) (on_segment3 a b) r -> least_distance3 (on_segment3 a b) (on_segment3 c d) r.
Proof.
  intros ((p & q & Hp & Hq & E) & H). split; [exists q, p; repeat split; auto; now rewrite dist3_sym|]. intros x y Hx Hy. rewrite dist3_sym. now apply H.
Qed.
Lemma on3_flip a b q : on_segment3 b a q -> on_segment3 a b q.
Proof. intros (t & Ht & ->). exists (1 - t). split; [lra|]. apply P3_ext; cbn; ring. Qed.
Lemma least_flip a b (B : P3 R -> Prop) r : least_distance3 (on_segment3 b a) B r -> least_distance3 (on_segment3 a b) B r.
Proof.
  intros ((p & q & Hp & Hq & E) & H). split; [exists p, q; repeat split; auto; now apply on3_flip|]. intros x y Hx Hy. apply H; auto. now apply on3_flip.
Qed.
(** The parameters the code computes are those of the closest points. *)
Lemma parallel_critical a b c d : c <> d -> dot3 a b a b * dot3 c d c d - dot3 a b c d * dot3 a b c d <= 0 ->
  critical a b c d 0 (if Rlt_bool (dot3 c d c d) (dot3 a b c d) then dot3 a b c a / dot3 a b c d else dot3 c d c a / dot3 c d c d).
Proof.
  intros N H. pose proof (gram a b c d) as G. pose proof (dot_pos c d N) as C0.
  assert (dot3 a b c a * dot3 c d c d = dot3 a b c d * dot3 c d c a) as P.
  { set (A := dot3 a b a b) in *. set (B := dot3 a b c d) in *. set (C := dot3 c d c d) in *.
    assert (forall u v, 0 <= u -> u + v <= 0 -> 0 <= v -> u = 0) as Z by (intros; lra).
    set (k1 := C * (qx b - qx a) - B * (qx d - qx c)). set (k2 := C * (qy b - qy a) - B * (qy d - qy c)). set (k3 := C * (qz b - qz a) - B * (qz d - qz c)).
    assert (k1² + k2² + k3² = C * (A * C - B * B)) as K by (unfold k1, k2, k3, A, B, C, dot3, Rsqr; ring).
    assert (A * C - B * B = 0) as Z0 by lra. rewrite Z0, Rmult_0_r in K.
    pose proof (Rle_0_sqr k1). pose proof (Rle_0_sqr k2). pose proof (Rle_0_sqr k3).
    assert (k1 = 0) as K1 by (apply Rsqr_0_uniq; lra). assert (k2 = 0) as K2 by (apply Rsqr_0_uniq; lra). assert (k3 = 0) as K3 by (apply Rsqr_0_uniq; lra).
    apply Rminus_diag_uniq. transitivity (k1 * (qx a - qx c) + k2 * (qy a - qy c) + k3 * (qz a - qz c)); [|rewrite K1, K2, K3; ring].
    unfold k1, k2, k3, dot3. ring. }
  destruct (Rlt_bool_spec (dot3 c d c d) (dot3 a b c d)) as [L|L]; split.
  - field. lra.
  - apply (Rmult_eq_reg_r (dot3 a b c d)); [|lra]. replace ((dot3 c d c a + 0 * dot3 a b c d - dot3 a b c a / dot3 a b c d * dot3 c d c d) * dot3 a b c d) with
      (dot3 a b c d * dot3 c d c a - dot3 a b c a * dot3 c d c d) by (field; lra). rewrite P. ring.
  - apply (Rmult_eq_reg_r (dot3 c d c d)); [|lra]. replace ((dot3 a b c a + 0 * dot3 a b a b - dot3 c d c a / dot3 c d c d * dot3 a b c d) * dot3 c d c d) with
      (dot3 a b c a * dot3 c d c d - dot3 a b c d * dot3 c d c a) by (field; lra). rewrite P. ring.
  - field. lra.
Qed.
Lemma dot4_R a b c d : g_dot_4 R NR a b c d = dot3 a b c d.
Proof. reflexivity. Qed.
Lemma neq_equals p q : p <> q -> g_equals_3d R NR p q = false.
Proof. intros N. destruct (g_equals_3d R NR p q) eqn:E; [apply equals_R in E; contradiction|reflexivity]. Qed.
(** The segments' distance, once the parameters are known. *)
Definition by_params (a b c d : P3 R) (s t : R) : R :=
  if Rlt_bool s 0 then p2sR a c d else if Rlt_bool 1 s then p2sR b c d
  else if Rlt_bool t 0 then p2sR c a b else if Rlt_bool 1 t then p2sR d a b
  else dist3 (along3 a b s) (along3 c d t).
Lemma s2s_params a b c d : a <> b -> c <> b -> c <> d ->
  exists s t, critical a b c d s t /\ s2sR a b c d = by_params a b c d s t /\
    (dot3 a b a b * dot3 c d c d - dot3 a b c d * dot3 a b c d <= 0 -> s = 0).
Proof.
  intros N1 N2 N3. unfold g_s2s_3d. rewrite (neq_equals a b N1), (neq_equals c b N2). change (g_dot_4 R NR) with dot3. cbn [NR nsub nmul nadd ndiv nle nlt nofZ nisnan]. cbv zeta iota.
  destruct (Rle_bool_spec (dot3 a b a b * dot3 c d c d - dot3 a b c d * dot3 a b c d) 0) as [H|H].
  - eexists. eexists. split; [apply (parallel_critical a b c d N3 H)|]. split; [reflexivity|reflexivity].
  - eexists. eexists. split; [apply (denom_critical a b c d H)|]. split; [reflexivity|intros; lra].
Qed.
Lemma by_params_least a b c d s t : critical a b c d s t -> 0 <= s <= 1 \/ 0 <= t <= 1 ->
  least_distance3 (on_segment3 a b) (on_segment3 c d) (by_params a b c d s t).
Proof.
  intros K R. unfold by_params. destruct (Rlt_bool_spec s 0) as [S0|S0]; [apply (edge_least a b c d s t); auto; lra|].
  destruct (Rlt_bool_spec 1 s) as [S1|S1].
  { apply least_flip. apply (edge_least b a c d (1 - s) t); [now apply critical_flip|lra|lra]. }
  destruct (Rlt_bool_spec t 0) as [T0|T0].
  { apply least_swap. apply (edge_least c d a b t s); [now apply critical_swap|lra|lra]. }
  destruct (Rlt_bool_spec 1 t) as [T1|T1].
  { apply least_swap. apply least_flip. apply (edge_least d c a b (1 - t) s); [now apply critical_flip, critical_swap|lra|lra]. }
  apply least_of; [exists s, t; repeat split; lra|]. intros x y _ _. apply sqrt_le_1_alt. now apply critical_least.
Qed.
Lemma by_params_attained a b c d s t : exists p q, on_segment3 a b p /\ on_segment3 c d q /\ by_params a b c d s t = dist3 p q.
Proof.
  unfold by_params.
  assert (forall p x y, exists q, on_segment3 x y q /\ p2sR p x y = dist3 p q) as P.
  { intros p x y. destruct (p2s_least3 p x y) as ((p' & q & <- & Hq & E) & _). now exists q. }
  destruct (Rlt_bool_spec s 0) as [S0|S0]; [destruct (P a c d) as (q & Hq & E); exists a, q; auto using on3_start|].
  destruct (Rlt_bool_spec 1 s) as [S1|S1]; [destruct (P b c d) as (q & Hq & E); exists b, q; auto using on3_end|].
  destruct (Rlt_bool_spec t 0) as [T0|T0]; [destruct (P c a b) as (q & Hq & E); exists q, c; rewrite dist3_sym; auto using on3_start|].
  destruct (Rlt_bool_spec 1 t) as [T1|T1]; [destruct (P d a b) as (q & Hq & E); exists q, d; rewrite dist3_sym; auto using on3_end|].
  exists (along3 a b s), (along3 c d t). split; [exists s; split; [lra|reflexivity]|]. split; [exists t; split; [lra|reflexivity]|reflexivity].
Qed.
